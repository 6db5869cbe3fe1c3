(** C106: programs with limits and several series, from the text to the file. *)
From Coq Require Import Reals Lra.
From Verif Require Import Base Num Num_Facts Sexpr_Model Dispatch_Model Dispatch_Spec Str_Model Data_Model Scale_Model Units_Model Color_Model Color_Spec Geo_Model Svg_Model Svg_Spec Svg_Embed
  Plist_Model Plist_Spec Plist_Proofs Plist_Props Cmd_Model Cmd_Spec Cmd_Proofs Style_Model Plot_Model Plot_Spec Axis_Model Eval_Model Eval_Spec Eval_Proofs Eval_Props4
  Scale_Spec Range_Spec Range_Props2 Page_Props Demo Eval_Examples Csv_Spec Source_Spec Whole_Spec Whole_Svg Whole_Proofs Whole_Props Whole_Spec2 Whole_Series Whole_Series2 Whole_Svg2.
Local Open Scope R_scope.

(** What a series of the program means: its numbers, its size in pixels, its colour. *)
Definition size_text (W : world) (k : style) (o : option str) (v : R) : Prop :=
  match o with None => v = default_size k | Some t => pixels W t v /\ 0 < v <= 65536 end.
Record means (W : world) (s : series) (d : drawn_series) : Prop := mk_means {
  me_style : sr_style s = ds_style d;
  me_x : exists ts, source_texts (w_read_file W) (sr_x s) ts /\ Forall2 (reads W) ts (ds_x d);
  me_y : exists ts, source_texts (w_read_file W) (sr_y s) ts /\ Forall2 (reads W) ts (ds_y d);
  me_len : length (ds_x d) = length (ds_y d);
  me_some : ds_x d <> [];
  me_size : size_text W (ds_style d) (sr_size s) (ds_size d);
  me_color : color_text (sr_color s) (ds_color d) }.

Lemma pt_near W E w h n : binary W -> usual_page W E w h -> 0 <= n <= 72 ->
  exists v, pt W E n = Fin v /\ is64 v /\ Rabs (v - n / 72 * 192) <= / 1000000000.
Proof.
  intros (D & _) (_ & _ & P & _) B. unfold pt, dpi. rewrite P. unfold unit_from_pt. rewrite D. cbn [xdiv]. destruct Req_EM_T as [Z|_]; [lra|]. cbn [xmul].
  pose proof (rnd64_unit (n / 72) ltac:(lra)) as E1. replace (Flocq.Core.Raux.bpow Flocq.Core.Zaux.radix2 (-53)) with (/ 9007199254740992) in E1 by reflexivity.
  apply Rabs_le_inv in E1. set (q := rnd64 (n / 72)) in *.
  pose proof (rnd64_abs2 (q * 192) ltac:(apply Rabs_le; lra)) as E2. apply Rabs_le_inv in E2.
  exists (rnd64 (q * 192)). split; [reflexivity|]. split; [apply rnd64_is|]. apply Rabs_le. lra.
Qed.
Definition sizes_ok (k : style) (v s : R) : Prop := (0 < v <= 65536 /\ 0 < s <= 65536) \/ (k = Areas /\ v = 0 /\ s = 0).
Lemma the_size_ok W E w h k o s : binary W -> usual_page W E w h -> size_text W k o s ->
  exists v, the_size W E k o (Fin v) /\ is64 v /\ sizes_ok k v s /\ Rabs (v - s) <= / 1000000000.
Proof.
  intros B U S. destruct o as [t|]; cbn [size_text] in S.
  - destruct S as [P L]. exists s. cbn [the_size]. split; [split; [now apply size_px|]; unfold xeq; destruct Req_EM_T; [lra|reflexivity]|]. split; [now apply (pixels_is64 W t)|]. split; [left; split; exact L|].
    rewrite Rminus_diag_eq, Rabs_R0 by reflexivity. lra.
  - subst s. cbn [the_size].
    assert (D : forall n, 0 < n <= 72 -> exists v, pt W E n = Fin v /\ is64 v /\ 0 < n / 72 * 192 <= 65536 /\ Rabs (v - n / 72 * 192) <= / 1000000000).
    { intros n Bn. destruct (pt_near W E w h n B U ltac:(lra)) as (v & P & I & A). exists v. split; [exact P|]. split; [exact I|]. split; [lra|exact A]. }
    assert (N : forall n z, 15 / 10 <= n <= 72 -> n / 72 * 192 = z -> exists v, Fin v = pt W E n /\ is64 v /\ sizes_ok k v z /\ Rabs (v - z) <= / 1000000000).
    { intros n z Bn <-. destruct (D n ltac:(lra)) as (v & P & I & Bz & A). exists v. split; [now rewrite P|]. split; [exact I|]. split; [left; split; [apply Rabs_le_inv in A; lra|exact Bz]|exact A]. }
    destruct k; cbn [default_size].
    + apply N; lra.
    + apply N; lra.
    + apply N; lra.
    + exists 0. split; [reflexivity|]. split; [apply (Svg_Props.is64_int 0); lia|]. split; [right; auto|]. rewrite Rminus_diag_eq, Rabs_R0 by reflexivity. lra.
Qed.
Lemma the_color_ok W E w h o l : binary W -> usual_page W E w h -> color_text o l -> exists q, the_color W E o (col q) /\ fine_color l q.
Proof.
  intros (_ & F & _) (_ & _ & _ & _ & Fg) [|a1 a2 b1 b2 c1 c2 n1 n2 n3 n4 n5 n6 A1 A2 B1 B2 C1 C2].
  - exists (mk_rgba 0 0 0 1). split; [cbn [the_color]; now rewrite Fg|exact fine_black].
  - pose proof (hex_reads (w_f W) (e_palette E) a1 a2 b1 b2 c1 c2 n1 n2 n3 n4 n5 n6 A1 A2 B1 B2 C1 C2 F (w_stod W)) as H.
    eexists. split; [cbn [the_color]; intro old; apply (H old)|apply (H black)].
Qed.
(** The shapes of a series are its picture. *)
Lemma points_near lx ux ly uy w h xs ys : Forall is64 xs -> Forall is64 ys -> is64 lx -> is64 ux -> is64 ly -> is64 uy -> is64 w -> is64 h ->
  0 < w <= 65536 -> 0 < h <= 65536 -> lx < ux -> ly < uy -> (forall x, In x xs -> lx <= x <= ux) -> (forall y, In y ys -> ly <= y <= uy) ->
  forall q, In q (combine xs ys) ->
    nearly (/ 1000000000) 65536 (along lx ux w (fst q)) (placed lx ux w (fst q)) /\
    nearly (/ 1000000000) 65536 (along ly uy h (snd q)) (placed ly uy h (snd q)).
Proof.
  intros X Y I1 I2 I3 I4 Iw Ih Bw Bh Dx Dy Kx Ky [x y] I. rewrite Forall_forall in X, Y.
  pose proof (in_combine_l _ _ _ _ I) as Ix. pose proof (in_combine_r _ _ _ _ I) as Iy. cbn [fst snd].
  assert (N : forall lo hi n v, is64 lo -> is64 hi -> is64 v -> is64 n -> 0 < n <= 65536 -> lo < hi -> lo <= v <= hi -> nearly (/ 1000000000) 65536 (along lo hi n v) (placed lo hi n v)).
  { intros lo hi n v A B C D L M Q. destruct (placed_ok lo hi n v A B C D ltac:(lra) M Q) as (_ & P & R). split; [apply rnd64_is|]. split; [exact R|].
    unfold along. assert (T : 0 <= (v - lo) / (hi - lo) <= 1).
    { split; [apply Rmult_le_pos; [lra|left; apply Rinv_0_lt_compat; lra]|]. apply (Rmult_le_reg_r (hi - lo)); [lra|]. unfold Rdiv. rewrite Rmult_assoc, Rinv_l by lra. lra. }
    set (t := (v - lo) / (hi - lo)) in *. apply Rabs_le. nra. }
  split; apply N; auto.
Qed.
(** The zero of the axis. *)
Lemma foot_near lo hi n : is64 lo -> is64 hi -> is64 n -> 0 < n <= 65536 -> lo < hi ->
  nearly (/ 1000000000) 65536 (along lo hi n (nearest_zero lo hi)) (foot64 lo hi n).
Proof.
  intros A B C D E. split; [apply rnd64_is|].
  assert (Z0 : is64 0) by (apply (Svg_Props.is64_int 0); lia).
  destruct (placed_ok lo hi n lo A B A C ltac:(lra) E ltac:(lra)) as (P & _ & _).
  assert (T : forall v, lo <= v <= hi -> 0 <= along lo hi n v <= n).
  { intros v Q. unfold along. assert (T : 0 <= (v - lo) / (hi - lo) <= 1).
    { split; [apply Rmult_le_pos; [lra|left; apply Rinv_0_lt_compat; lra]|]. apply (Rmult_le_reg_r (hi - lo)); [lra|]. unfold Rdiv. rewrite Rmult_assoc, Rinv_l by lra. lra. }
    nra. }
  assert (Q : lo <= nearest_zero lo hi <= hi) by (unfold nearest_zero, Rmax, Rmin; repeat destruct Rle_dec; lra).
  split; [|specialize (T _ Q); apply Rabs_le; lra].
  unfold foot64, zero64. set (z := share lo hi 0).
  assert (ZV : z = rnd64 (rnd64 (0 - lo) / rnd64 (hi - lo))) by reflexivity. set (dd := rnd64 (hi - lo)) in *.
  destruct (Rle_dec lo 0) as [L0|L0]; [destruct (Rle_dec 0 hi) as [H0|H0]|].
  - replace (nearest_zero lo hi) with 0 by (unfold nearest_zero, Rmax, Rmin; repeat destruct Rle_dec; lra).
    assert (S : 0 <= z <= 1).
    { rewrite ZV. pose proof (rnd64_mono 0 (0 - lo) ltac:(lra)) as P1. rewrite Scale_Proofs2.rnd64_0 in P1. pose proof (rnd64_mono (0 - lo) (hi - lo) ltac:(lra)) as P2. fold dd in P2.
      apply (rnd64_range _ 1); [apply (Svg_Props.is64_int 1); lia|]. split; [apply Rmult_le_pos; [lra|left; now apply Rinv_0_lt_compat]|].
      apply (Rmult_le_reg_r dd); [exact P|]. unfold Rdiv. rewrite Rmult_assoc, Rinv_l by lra. lra. }
    destruct (Rlt_dec z 0); [lra|]. destruct (Rlt_dec 1 z); [lra|].
    exact (proj2 (proj2 (placed_ok lo hi n 0 A B Z0 C ltac:(lra) E ltac:(lra)))).
  - replace (nearest_zero lo hi) with hi by (unfold nearest_zero, Rmax, Rmin; repeat destruct Rle_dec; lra).
    assert (S : 1 <= z).
    { rewrite ZV. pose proof (rnd64_mono (hi - lo) (0 - lo) ltac:(lra)) as P2. fold dd in P2.
      rewrite <- (rnd64_id 1) by (apply (Svg_Props.is64_int 1); lia). apply rnd64_mono. apply (Rmult_le_reg_r dd); [exact P|]. unfold Rdiv. rewrite Rmult_assoc, Rinv_l by lra. lra. }
    replace (along lo hi n hi) with n by (unfold along; field; lra).
    destruct (Rlt_dec z 0); [lra|]. replace (if Rlt_dec 1 z then 1 else z) with 1 by (destruct (Rlt_dec 1 z); lra).
    rewrite Rmult_1_l, rnd64_id by exact C. rewrite Rminus_diag_eq, Rabs_R0 by reflexivity. lra.
  - replace (nearest_zero lo hi) with lo by (unfold nearest_zero, Rmax, Rmin; repeat destruct Rle_dec; lra).
    assert (S : z <= 0).
    { rewrite ZV. pose proof (rnd64_mono (0 - lo) 0 ltac:(lra)) as P1. rewrite Scale_Proofs2.rnd64_0 in P1.
      eapply Rle_trans; [apply (rnd64_mono _ 0)|rewrite Scale_Proofs2.rnd64_0; lra]. apply (Rmult_le_reg_r dd); [exact P|]. unfold Rdiv. rewrite Rmult_assoc, Rinv_l by lra. lra. }
    replace (along lo hi n lo) with 0 by (unfold along; field; lra).
    replace (if Rlt_dec z 0 then 0 else if Rlt_dec 1 z then 1 else z) with 0 by (destruct (Rlt_dec z 0); [reflexivity|]; destruct (Rlt_dec 1 z); lra).
    rewrite Rmult_0_l, Scale_Proofs2.rnd64_0, Rminus_diag_eq, Rabs_R0 by reflexivity. lra.
Qed.
Lemma Forall2_map_in {A B C} (P : B -> C -> Prop) (f : A -> B) (g : A -> C) l : (forall a, In a l -> P (f a) (g a)) -> Forall2 P (map f l) (map g l).
Proof. intro H. induction l as [|a l IH]; cbn [map]; constructor; [apply H; now left|]. apply IH. intros. apply H. now right. Qed.
Lemma Forall2_rev_ {A B} (P : A -> B -> Prop) l m : Forall2 P l m -> Forall2 P (rev l) (rev m).
Proof. intro F. induction F; cbn [rev]; [constructor|]. apply Forall2_app; [assumption|]. constructor; [assumption|constructor]. Qed.
Lemma polyline_foot (pts ft : list (R * R)) : pts <> [] ->
  polyline (map (fun q => vec (fst q) (snd q)) pts) ++ map LineTo (map (fun q => vec (fst q) (snd q)) ft) ++ [Close] = map command (through (pts ++ ft) ++ [SClose]).
Proof.
  intro N. destruct pts as [|p r]; [congruence|]. unfold through. cbn [app map polyline command]. rewrite !map_app, !map_map. cbn [map command]. rewrite <- app_assoc. reflexivity.
Qed.
Lemma shapes_picture sort_cw fuel lx ux ly uy w h k q v s l xs ys : Forall is64 xs -> Forall is64 ys -> is64 lx -> is64 ux -> is64 ly -> is64 uy -> is64 w -> is64 h ->
  0 < w <= 65536 -> 0 < h <= 65536 -> lx < ux -> ly < uy -> (forall x, In x xs -> lx <= x <= ux) -> (forall y, In y ys -> ly <= y <= uy) ->
  length xs = length ys -> xs <> [] -> fine_color l q -> is64 v -> sizes_ok k v s -> Rabs (v - s) <= / 1000000000 ->
  drawn_as sort_cw fuel h (shapes_at lx ux ly uy w h (k, col q, Fin v, xs, ys))
    (series_paints (mk_drawn k xs ys s l) (h - along ly uy h (nearest_zero ly uy)) (map (in_file lx ux ly uy w h) (combine xs ys))).
Proof.
  intros X Y I1 I2 I3 I4 Iw Ih Bw Bh Dx Dy Kx Ky Len NE C Iv SO A.
  pose proof (points_near lx ux ly uy w h xs ys X Y I1 I2 I3 I4 Iw Ih Bw Bh Dx Dy Kx Ky) as N.
  pose proof (foot_near ly uy h I3 I4 Ih Bh Dy) as NF. set (b := along ly uy h (nearest_zero ly uy)) in *. set (f := foot64 ly uy h) in *.
  assert (NC : combine xs ys <> []) by (destruct xs, ys; try discriminate; congruence).
  assert (CL : Forall2 (close_by h) (map (in_file lx ux ly uy w h) (combine xs ys)) (map (at_place lx ux ly uy w h) (combine xs ys))).
  { apply Forall2_map_in. intros a I. destruct (N a I) as [Nx Ny]. unfold close_by, in_file, at_place. cbn [fst snd]. split; [exact Nx|].
    replace (h - (h - along ly uy h (snd a))) with (along ly uy h (snd a)) by ring. exact Ny. }
  unfold shapes_at, series_paints, series_shapes. cbn [ds_style ds_x ds_y ds_size ds_color]. fold f. destruct k.
  - destruct SO as [[Bv Bs]|(Q & _)]; [|discriminate].
    rewrite polyline_through. change (shape_of ?p (stroke_with ?a ?b) fill0 None) with (draw_shape (mk_cmd p (mk_compound [] [] [] []) (mk_stroke_style a b false (Fin 0) []) fill0 None)).
    destruct (through_ok h _ _ Ih ltac:(lra) CL) as (G & S & F). apply drawn_stroke; try assumption. unfold almost. lra.
  - destruct SO as [[Bv Bs]|(Q & _)]; [|discriminate].
    rewrite map_map, !map_map. clear Kx Ky X Y CL NC. induction (combine xs ys) as [|p r IH]; cbn [map]; [apply drawn_nil|].
    apply (drawn_app sort_cw fuel h [_] [_]).
    + destruct (N p (or_introl eq_refl)) as [Nx Ny].
      destruct (circ_ok _ _ _ _ v s h Nx Ny Ih ltac:(lra) Iv Bv A Bs) as (G & S & F).
      unfold vec, at_place, in_file. cbn [fst snd]. rewrite circle_circ. now apply (drawn_fill sort_cw fuel h (circ (placed lx ux w (fst p)) (placed ly uy h (snd p)) (radius v) (handle v)) q).
    + apply IH. intros. apply N. now right.
  - destruct SO as [[Bv Bs]|(Q & _)]; [|discriminate].
    rewrite map_map, !map_map. clear Kx Ky X Y CL NC. induction (combine xs ys) as [|p r IH]; cbn [map]; [apply drawn_nil|].
    apply (drawn_app sort_cw fuel h [_] [_]).
    + destruct (N p (or_introl eq_refl)) as [Nx Ny].
      destruct (box_ok _ _ _ _ _ _ v s h Nx Ny NF Ih ltac:(lra) Iv Bv A Bs) as (G & S & F).
      exact (drawn_fill0 sort_cw fuel h (box (placed lx ux w (fst p)) (placed ly uy h (snd p)) v f) q l _ G S F C).
    + apply IH. intros. apply N. now right.
  - set (pts := map (at_place lx ux ly uy w h) (combine xs ys)) in *. set (ideal := map (in_file lx ux ly uy w h) (combine xs ys)) in *.
    assert (NP : pts <> []) by (unfold pts; destruct (combine xs ys); [congruence|discriminate]).
    replace (rev (map (fun p => mk_vec2 (vx p) (Fin f)) (map (fun p => vec (fst p) (snd p)) pts))) with (map (fun p => vec (fst p) (snd p)) (rev (map (fun p => (fst p, f)) pts))).
    2: { rewrite map_rev, !map_map. reflexivity. }
    rewrite polyline_foot by exact NP. rewrite !polyline_through.
    assert (CF : Forall2 (close_by h) (rev (map (fun p => (fst p, h - b)) ideal)) (rev (map (fun p => (fst p, f)) pts))).
    { apply Forall2_rev_. clear - CL NF. induction CL as [|P p ps qs (H & _) F IH]; cbn [map]; constructor; [|exact IH]. split; cbn [fst snd]; [exact H|]. replace (h - (h - b)) with b by ring. exact NF. }
    destruct (through_ok h _ _ Ih ltac:(lra) CL) as (G1 & S1 & F1). destruct (through_ok h _ _ Ih ltac:(lra) CF) as (G2 & S2 & F2).
    destruct (closed_ok h _ _ (through_ok h _ _ Ih ltac:(lra) (Forall2_app CL CF))) as (G3 & S3 & F3).
    apply (drawn_app sort_cw fuel h [_] [_]); [exact (drawn_fill sort_cw fuel h _ q l _ G3 S3 F3 C)|].
    destruct SO as [[Bv Bs]|(_ & -> & ->)].
    + destruct (Rlt_dec 0 s) as [_|Q]; [|lra]. apply (drawn_app sort_cw fuel h [_] [_]); apply drawn_stroke; try assumption; unfold almost; lra.
    + destruct (Rlt_dec 0 0) as [Q|_]; [lra|]. apply (drawn_app sort_cw fuel h [_] []); [now apply drawn_none|]. now apply drawn_none.
Qed.
Lemma series_entry W E w h s d sort_cw fuel : binary W -> usual_page W E w h -> means W s d -> is64 w -> is64 h -> 0 < w <= 65536 -> 0 < h <= 65536 ->
  exists r, read_as W E s r /\ rxs r = ds_x d /\ rys r = ds_y d /\
    forall lx ux ly uy, is64 lx -> is64 ux -> is64 ly -> is64 uy -> lx < ux -> ly < uy ->
      (forall x, In x (ds_x d) -> lx <= x <= ux) -> (forall y, In y (ds_y d) -> ly <= y <= uy) ->
      drawn_as sort_cw fuel h (shapes_at lx ux ly uy w h r) (series_paints d (h - along ly uy h (nearest_zero ly uy)) (map (in_file lx ux ly uy w h) (combine (ds_x d) (ds_y d)))).
Proof.
  intros B U [St Fx Fy L N Sz Co] Iw Ih Bw Bh. destruct d as [k xs ys z l]. cbn [ds_style ds_x ds_y ds_size ds_color] in *.
  destruct (the_size_ok W E w h k _ z B U Sz) as (v & TS & Iv & Bv & Av). destruct (the_color_ok W E w h _ l B U Co) as (q & TC & FC).
  exists (k, col q, Fin v, xs, ys). split; [split; [exact St|]; constructor; try assumption; now rewrite St|]. split; [reflexivity|]. split; [reflexivity|].
  intros lx ux ly uy I1 I2 I3 I4 Dx Dy Kx Ky. destruct Fx as (tx & _ & Fx), Fy as (ty & _ & Fy). apply shapes_picture; try assumption; eapply reads64; eassumption.
Qed.
Lemma series_entries W E w h ss ds sort_cw fuel : binary W -> usual_page W E w h -> Forall2 (means W) ss ds -> is64 w -> is64 h -> 0 < w <= 65536 -> 0 < h <= 65536 ->
  exists rs, Forall2 (read_as W E) ss rs /\ flat_map rxs rs = flat_map ds_x ds /\ flat_map rys rs = flat_map ds_y ds /\
    forall lx ux ly uy, is64 lx -> is64 ux -> is64 ly -> is64 uy -> lx < ux -> ly < uy ->
      (forall x, In x (flat_map ds_x ds) -> lx <= x <= ux) -> (forall y, In y (flat_map ds_y ds) -> ly <= y <= uy) ->
      drawn_as sort_cw fuel h (flat_map (shapes_at lx ux ly uy w h) rs)
        (flat_map (fun d => series_paints d (h - along ly uy h (nearest_zero ly uy)) (map (in_file lx ux ly uy w h) (combine (ds_x d) (ds_y d)))) ds).
Proof.
  intros B U F Iw Ih Bw Bh. induction F as [|s d ss ds M F IH].
  - exists []. split; [constructor|]. split; [reflexivity|]. split; [reflexivity|]. intros. apply drawn_nil.
  - destruct IH as (rs & R & X & Y & D). destruct (series_entry W E w h s d sort_cw fuel B U M Iw Ih Bw Bh) as (r & R1 & X1 & Y1 & D1).
    exists (r :: rs). split; [now constructor|]. cbn [flat_map]. split; [now rewrite X1, X|]. split; [now rewrite Y1, Y|].
    intros lx ux ly uy I1 I2 I3 I4 Dx Dy Kx Ky. apply drawn_app; [apply D1|apply D]; try assumption; intros z I; (apply Kx || apply Ky); apply in_app_iff; auto.
Qed.

(** Settings and the content of a program. *)
Lemma rest_content W l : Forall (fun x => knows (eval_table W) x = false) l -> l <> [] -> forall u t, rest (eval_table W) l u t = u ++ l.
Proof.
  intros F. induction F as [|x l K F IH]; intros N u t; [congruence|]. cbn [rest]. rewrite K. destruct l as [|y l]; [cbn [rest]; now rewrite app_nil_r|].
  rewrite IH by discriminate. now rewrite <- app_assoc.
Qed.
Lemma options_content W l s : Forall (fun x => exists k a, x = EList (ELit k :: a) /\ assoc k (eval_table W) = None) l -> options (eval_table W) l s = Ret s.
Proof. intro F. induction F as [|x l (k & a & -> & K) F IH]; [reflexivity|]. rewrite options_cons. cbn [option_of]. now rewrite K. Qed.
Lemma setting_args W pre w h E args : binary W -> page_setting W pre w h -> e_layer E = layer0 -> e_bg E = opaque_white -> e_fg E = opaque_black ->
  args <> [] -> Forall (fun x => exists k a, x = EList (ELit k :: a) /\ assoc k (eval_table W) = None) args ->
  is64 w /\ is64 h /\ exists E', usual_page W E' w h /\
    forall l, plot_eval W E' args = Ret l -> eval_exprs W E (map tree_expr pre ++ args) = Ret (E', l).
Proof.
  intros B S L Bg Fg N C.
  assert (KN : Forall (fun x => knows (eval_table W) x = false) args).
  { eapply Forall_impl; [|exact C]. intros x (k & a & -> & K). unfold knows. cbn [option_of]. now rewrite K. }
  assert (PL : forall E' l, plot_eval W E' args = Ret l ->
    (let* (s, rs) := @Ret (env * str * list expr) ((E', s_ "plot"), args) in let '(E0, name) := s in
     match name with [] => Err | _ => match assoc name (modules W) with None => Err | Some m => match rs with [] => UB | _ => let* l0 := m E0 rs in Ret (E0, l0) end end end) = Ret (E', l)).
  { intros E' l P. cbn [bind]. change (s_ "plot") with ("p"%char :: s_ "lot"). cbv iota. change (assoc ("p"%char :: s_ "lot") (modules W)) with (Some (plot_eval W)).
    cbv iota. destruct args; [congruence|]. rewrite P. reflexivity. }
  destruct S as [|wt ht w h Pw Ph].
  - split; [apply (Svg_Props.is64_int 1600); lia|]. split; [apply (Svg_Props.is64_int 800); lia|]. exists E. split.
    + unfold usual_page, page_width, page_height. rewrite L. repeat split; assumption.
    + intros l P. cbn [map app]. rewrite eval_is, (options_content W args _ C). cbn [bind]. rewrite (rest_content W args KN N). exact (PL E l P).
  - split; [now apply (pixels_is64 W wt)|]. split; [now apply (pixels_is64 W ht)|].
    assert (R : layer_resize_cmd (w_d W) (w_stod W) (e_layer E) [ELit wt; ELit ht] = (with_size (e_layer E) (from_px (Fin w)) (from_px (Fin h)), Ret tt)).
    { unfold layer_resize_cmd, measure_read. cbn [value_of]. now rewrite (measure_px W _ _ Pw), (measure_px W _ _ Ph). }
    exists (with_layer (with_size (e_layer E) (from_px (Fin w)) (from_px (Fin h))) E). split.
    + unfold usual_page, page_width, page_height. cbn [e_layer with_layer e_bg e_fg]. rewrite L. repeat split; assumption.
    + intros l P. cbn [map app tree_expr val_expr]. rewrite eval_is, options_cons. cbn [option_of].
      change (assoc (s_ "size") (eval_table W)) with (Some (updf (fun s : env * str => e_layer (fst s)) (fun e l0 => ended (layer_resize_cmd (w_d W) (w_stod W) l0 e)) (fun v s => (with_layer v (fst s), snd s)))).
      unfold updf. cbn [fst snd]. rewrite R. cbn [ended bind fst snd].
      rewrite (options_content W args _ C). cbn [bind]. cbn [rest].
      change (knows (eval_table W) (EList [ELit (s_ "size"); ELit wt; ELit ht])) with true. cbv iota.
      rewrite (rest_content W args KN N). exact (PL _ l P).
Qed.
(** The tool writes what the program draws. *)
Lemma main_writes W version fonts stdin o opts path target text E E' l file :
  last_opt is_export opts = Some target -> target <> [] -> target <> s_ "-" -> wants opts false ->
  existsb is_help opts = false -> existsb is_version opts = false -> existsb is_font_load opts = false -> forallb known_opt opts = true ->
  takes o target -> program_text W stdin path text -> layer_create W (Ret fonts) [] = Ret E -> eval_text W E text = Ret (E', l) -> svg_of W version E' l = Ret file ->
  main_ W version (Ret fonts) stdin o opts [path] = Ret (mk_result 0 [] (Some (target, file))).
Proof.
  intros X N1 N2 F Hh Hv Hf K [T1 T2] PT LC ET SV.
  assert (FL : map Eval_Model.opt_arg (filter is_font_load opts) = []).
  { clear - Hf. induction opts as [|x r IH]; [reflexivity|]. cbn [existsb] in Hf. apply orb_false_iff in Hf as [Hx Hr]. cbn [filter]. rewrite Hx. now apply IH. }
  assert (PI : picture W version (Ret fonts) stdin (map Eval_Model.opt_arg (filter is_font_load opts)) path = Ret file).
  { unfold picture. rewrite FL, LC. cbn [bind]. destruct PT as [[-> <-]|[NP RF]].
    - cbn [bind]. change (str_eqb (s_ "-") (s_ "-")) with true. cbn [bind]. now rewrite ET.
    - destruct (str_eqb_spec path (s_ "-")) as [Q|_]; [congruence|]. rewrite RF. cbn [bind]. now rewrite ET. }
  destruct target as [|c t]; [congruence|].
  assert (M : exists r, main_ W version (Ret fonts) stdin o opts [path] = Ret r /\ r = file_write o (c :: t) file).
  { unfold main_. rewrite flags0_ok, K. cbn [bind].
    assert (C : choose_format (flags_of opts) = Ret SVG).
    { unfold choose_format, flags_of. cbn [fl_format fl_export]. unfold wants in F. destruct (last_opt is_format opts) as [[|c0 f]|]; cbn [or_else].
      - rewrite X in F. rewrite X. cbn [or_else] in F |- *. now rewrite F.
      - rewrite F. reflexivity.
      - rewrite X in F. rewrite X. cbn [or_else] in F |- *. now rewrite F. }
    unfold cli_run, flags_of in *. cbn [fl_version fl_help fl_export fl_fonts]. rewrite C, Hh, Hv, X. cbn [or_else bind].
    unfold picture in PI. destruct (layer_create W (Ret fonts) (map Eval_Model.opt_arg (filter is_font_load opts))) as [E0| | | |]; try discriminate. cbn [bind] in PI |- *.
    destruct (if str_eqb path (s_ "-") then Ret stdin else match w_read_file W path with Some t0 => Ret t0 | None => Err end) as [input| | | |]; try discriminate. cbn [bind] in PI |- *.
    destruct (eval_text W E0 input) as [[E1' l1]| | | |]; try discriminate. cbn [bind] in PI |- *. rewrite PI. cbn [bind].
    destruct (str_eqb_spec (c :: t) (s_ "-")) as [Q|_]; [congruence|]. eexists. split; reflexivity. }
  destruct M as (r & M & ->). rewrite M. unfold file_write. rewrite T1, T2, Nat.eqb_refl, firstn_all. reflexivity.
Qed.

(** C106, for charts of any number of lines, points, bars and areas, with numbers from the program
    or from CSV files, with or without limits, sizes and colours: status 0, and the file is a white
    page with each series in the order of the program, and nothing else. Lines go through their
    points; a point is a disc around its place; bars and areas lie between their points and the
    zero of the y axis, or the border that is nearest to it; the places are in proportion between the limits of the program, or between the least and the
    greatest numbers of all series. All numbers of the file are right to a thousandth, the
    colours are exact. *)
Theorem C106_chart : forall (W : world) (version : str) (fonts : font) (stdin : str) (o : os) (opts : list opt) (path target text : str)
    (pre : list ptree) (w h : R) (limx limy : option (str * str)) (ss : list series) (ds : list drawn_series) (lx ux ly uy : R),
  binary W -> ~ In "-"%char version ->
  (* the command line *)
  last_opt is_export opts = Some target -> target <> [] -> target <> s_ "-" -> wants opts false ->
  existsb is_help opts = false -> existsb is_version opts = false -> existsb is_font_load opts = false -> forallb known_opt opts = true ->
  takes o target ->
  (* the program *)
  program_text W stdin path text -> trees_text (pre ++ limits_tree "limit-x" limx ++ limits_tree "limit-y" limy ++ map series_tree ss) text ->
  page_setting W pre w h -> 0 < w <= 65536 -> 0 < h <= 65536 ->
  ss <> [] -> Forall2 (means W) ss ds ->
  axis_range W limx (flat_map ds_x ds) lx ux -> axis_range W limy (flat_map ds_y ds) ly uy -> lx < ux -> ly < uy ->
  exists file, main_ W version (Ret fonts) stdin o opts [path] = Ret (mk_result 0 [] (Some (target, file))) /\
    shows_picture file w h (chart_picture w h lx ux ly uy ds).
Proof.
  intros W version fonts stdin o opts path target text pre w h limx limy ss ds lx ux ly uy B V X N1 N2 F Hh Hv Hf K T PT TT PS Bw Bh NS M Rx Ry Dx Dy.
  assert (LC : exists E, layer_create W (Ret fonts) [] = Ret E) by (eexists; reflexivity). destruct LC as [E LC].
  destruct (C99_new_page W _ _ E LC) as (E1 & E2 & E3 & E4 & Bg & Fg & _).
  assert (EL : e_layer E = layer0).
  { destruct (e_layer E) as [a b c e]. cbn in E1, E2, E3, E4. now subst. }
  destruct (setting_args W pre w h E (program_args limx limy ss) B PS EL Bg Fg) as (Iw & Ih & E' & UP & EV).
  { unfold program_args. destruct ss; [congruence|]. intro Q. apply app_eq_nil in Q as [_ Q]. discriminate. }
  { unfold program_args, series_exprs. apply Forall_app. split; [apply Forall_app; split|].
    - destruct limx as [[a b]|]; [|constructor]. constructor; [|constructor]. do 2 eexists. split; reflexivity.
    - destruct limy as [[a b]|]; [|constructor]. constructor; [|constructor]. do 2 eexists. split; reflexivity.
    - rewrite Forall_map. apply Forall_forall. intros s _. do 2 eexists. split; [reflexivity|]. unfold series_key. destruct (sr_style s); reflexivity. }
  destruct (range_64 W _ _ _ _ B Rx) as [I1 I2]. destruct (range_64 W _ _ _ _ B Ry) as [I3 I4].
  destruct (series_entries W E' w h ss ds (w_sort_cw W) (w_fuel W) B UP M Iw Ih Bw Bh) as (rs & RA & RX & RY & DR).
  specialize (DR lx ux ly uy I1 I2 I3 I4 Dx Dy (fun x => range_in W _ _ _ _ x Rx) (fun y => range_in W _ _ _ _ y Ry)).
  destruct UP as (Pw & Ph & Pd & Pb & Pf).
  destruct (drawn_shows _ _ version w h _ _ V Ih ltac:(unfold small; rewrite Rabs_pos_eq; lra) ltac:(unfold small; rewrite Rabs_pos_eq; lra) DR) as (file & SV & SP).
  exists file. split; [|exact SP].
  specialize (EV (flat_map (shapes_at lx ux ly uy w h) rs)).
  apply (main_writes W version fonts stdin o opts path target text E E' (flat_map (shapes_at lx ux ly uy w h) rs) file); try assumption.
  - unfold eval_text. rewrite (C16_reads_tree _ _ TT). cbn [bind]. rewrite !map_app, !limits_expr, map_map.
    replace (map (fun s => tree_expr (series_tree s)) ss) with (series_exprs ss) by (unfold series_exprs; apply map_ext; intro s; now rewrite series_expr).
    rewrite <- EV; [unfold program_args; now rewrite <- app_assoc|]. apply eval_series; try assumption; try lra; [now rewrite RX|now rewrite RY].
  - unfold svg_of. rewrite Pw, Ph, Pb. destruct B as (-> & _). exact SV.
Qed.
Print Assumptions C106_chart.

(** A program on standard input: clip -e out.svg - *)
Definition chart2 : str := s_ "limit-x: 0 10; " ++ s_ "lines { data-x: list(1 2 4); data-y: list(3 1 5); color: #ff8000; } " ++ s_ "points { data-x: list(2 8); data-y: list(1 3); size: 12px; }".
Definition chart2_series : list series :=
  [mk_series Lines (Listed [s_ "1"; s_ "2"; s_ "4"]) (Listed [s_ "3"; s_ "1"; s_ "5"]) None (Some (s_ "#ff8000"));
   mk_series Points (Listed [s_ "2"; s_ "8"]) (Listed [s_ "1"; s_ "3"]) (Some (s_ "12px")) None].
Definition plain (t : str) : Prop := t <> [] /\ forallb (fun c => negb (word_stop c)) t = true.
Fixpoint spaced (ts : list str) : str := match ts with [] => [] | [t] => t | t :: r => t ++ s_ " " ++ spaced r end.
Lemma words_text ts : Forall plain ts -> args_text (map VLit ts) (spaced ts).
Proof.
  intro F. induction F as [|t r [N C] F IH]; [repeat constructor|]. destruct r as [|u r].
  - cbn [map spaced]. rewrite <- (app_nil_r t) at 2. apply (at_one (VLit t) t [] []); [constructor|constructor|now apply a_word].
  - change (map VLit (t :: u :: r)) with (VLit t :: map VLit (u :: r)). change (spaced (t :: u :: r)) with ([] ++ t ++ s_ " " ++ spaced (u :: r)).
    apply at_space; [constructor|repeat constructor|discriminate|now apply a_word|discriminate|exact IH].
Qed.
Lemma blank_front vs t : vs <> [] -> args_text vs t -> args_text vs (s_ " " ++ t).
Proof.
  intros N H. assert (B : forall w, Plist_Spec.blank w -> Plist_Spec.blank (s_ " " ++ w)) by (intros w B; repeat constructor; exact B).
  inversion H; subst; [congruence|rewrite (app_assoc (s_ " "))..]; [apply at_one|apply at_cons|apply at_space]; auto.
Qed.
Lemma prop_words (k : str) ts : plain k -> ts <> [] -> Forall plain ts -> tree_text (Prop_ k (map VLit ts)) (k ++ s_ ": " ++ spaced ts ++ s_ ";").
Proof.
  intros [N C] NE F. change (k ++ s_ ": " ++ spaced ts ++ s_ ";") with (k ++ [] ++ s_ ":" ++ (s_ " " ++ spaced ts) ++ s_ ";").
  apply tt_prop; [constructor; now apply word_check|constructor|]. apply blank_front; [destruct ts; [congruence|discriminate]|now apply words_text].
Qed.
Lemma prop_list (k : str) ts : plain k -> Forall plain ts -> tree_text (Prop_ k [VFn (s_ "list") (map VLit ts)]) (k ++ s_ ": " ++ (s_ "list(" ++ spaced ts ++ s_ ")") ++ s_ ";").
Proof.
  intros [N C] F. change (k ++ s_ ": " ++ ?a ++ s_ ";") with (k ++ [] ++ s_ ":" ++ (s_ " " ++ a) ++ s_ ";").
  apply tt_prop; [constructor; now apply word_check|constructor|]. apply blank_front; [discriminate|].
  rewrite <- (app_nil_r (s_ "list(" ++ spaced ts ++ s_ ")")). apply (at_one _ (s_ "list(" ++ spaced ts ++ s_ ")") [] []); [constructor|constructor|].
  apply (xt_fn (s_ "list") (map VLit ts) [] (spaced ts)); [apply word_check; [discriminate|reflexivity]|constructor|now apply words_text].
Qed.
Lemma chart2_text : trees_text ([] ++ limits_tree "limit-x" (Some (s_ "0", s_ "10")) ++ limits_tree "limit-y" None ++ map series_tree chart2_series) chart2.
Proof.
  unfold chart2, chart2_series. cbn [app limits_tree may map fst snd]. unfold series_tree. cbn [sr_style sr_x sr_y sr_size sr_color may app].
  assert (P : forall t, t <> [] -> forallb (fun c => negb (word_stop c)) t = true -> plain t) by (intros; split; assumption).
  assert (B1 : Plist_Spec.blank (s_ " ")) by repeat constructor.
  apply (ts_cons _ (s_ "limit-x: 0 10;") _ (s_ " lines { data-x: list(1 2 4); data-y: list(3 1 5); color: #ff8000; } " ++ s_ "points { data-x: list(2 8); data-y: list(1 3); size: 12px; }") []); [constructor| |].
  { apply (prop_words (s_ "limit-x") [s_ "0"; s_ "10"]); [now apply P|discriminate|repeat (constructor; [now apply P|]); constructor]. }
  apply (ts_cons _ (s_ "lines { data-x: list(1 2 4); data-y: list(3 1 5); color: #ff8000; }") _ (s_ " points { data-x: list(2 8); data-y: list(1 3); size: 12px; }") (s_ " ")); [exact B1| |].
  - apply (tt_block (s_ "lines") (s_ "lines") (s_ " ") _ (s_ " data-x: list(1 2 4); data-y: list(3 1 5); color: #ff8000; ")); [constructor; apply word_check; [discriminate|reflexivity]|exact B1|].
    apply (ts_cons _ (s_ "data-x: list(1 2 4);") _ (s_ " data-y: list(3 1 5); color: #ff8000; ") (s_ " ")); [exact B1| |].
    { apply (prop_list (s_ "data-x") [s_ "1"; s_ "2"; s_ "4"]); [now apply P|repeat (constructor; [now apply P|]); constructor]. }
    apply (ts_cons _ (s_ "data-y: list(3 1 5);") _ (s_ " color: #ff8000; ") (s_ " ")); [exact B1| |].
    { apply (prop_list (s_ "data-y") [s_ "3"; s_ "1"; s_ "5"]); [now apply P|repeat (constructor; [now apply P|]); constructor]. }
    apply (ts_cons _ (s_ "color: #ff8000;") _ (s_ " ") (s_ " ")); [exact B1| |constructor; exact B1].
    apply (prop_words (s_ "color") [s_ "#ff8000"]); [now apply P|discriminate|repeat (constructor; [now apply P|]); constructor].
  - apply (ts_cons _ (s_ "points { data-x: list(2 8); data-y: list(1 3); size: 12px; }") _ [] (s_ " ")); [exact B1| |repeat constructor].
    apply (tt_block (s_ "points") (s_ "points") (s_ " ") _ (s_ " data-x: list(2 8); data-y: list(1 3); size: 12px; ")); [constructor; apply word_check; [discriminate|reflexivity]|exact B1|].
    apply (ts_cons _ (s_ "data-x: list(2 8);") _ (s_ " data-y: list(1 3); size: 12px; ") (s_ " ")); [exact B1| |].
    { apply (prop_list (s_ "data-x") [s_ "2"; s_ "8"]); [now apply P|repeat (constructor; [now apply P|]); constructor]. }
    apply (ts_cons _ (s_ "data-y: list(1 3);") _ (s_ " size: 12px; ") (s_ " ")); [exact B1| |].
    { apply (prop_list (s_ "data-y") [s_ "1"; s_ "3"]); [now apply P|repeat (constructor; [now apply P|]); constructor]. }
    apply (ts_cons _ (s_ "size: 12px;") _ (s_ " ") (s_ " ")); [exact B1| |constructor; exact B1].
    apply (prop_words (s_ "size") [s_ "12px"]); [now apply P|discriminate|repeat (constructor; [now apply P|]); constructor].
Qed.
(** An orange line and two black discs of radius 6. *)
Example C106_chart_case : exists file,
  main_ chart_world (s_ "1") (Ret []) chart2 (mk_os (fun _ => true) (fun _ n => Some n) (fun n => n)) [Short "e" (s_ "out.svg")] [s_ "-"] =
    Ret (mk_result 0 [] (Some (s_ "out.svg", file))) /\
  shows_picture file 1600 800
    [Fill (page_of_size 1600 800) white_ 1 false;
     Stroke (through [(160, 400); (320, 800); (640, 0)]) (255, 128, 0)%nat 1 4 [] 0 false;
     Fill (disc 6 (320, 800)) black_ 1 false; Fill (disc 6 (1280, 400)) black_ 1 false].
Proof.
  destruct (C106_chart chart_world (s_ "1") [] chart2 (mk_os (fun _ => true) (fun _ n => Some n) (fun n => n)) [Short "e" (s_ "out.svg")] (s_ "-") (s_ "out.svg") chart2
    [] 1600 800 (Some (s_ "0", s_ "10")) None chart2_series
    [mk_drawn Lines [1; 2; 4] [3; 1; 5] 4 (255, 128, 0)%nat; mk_drawn Points [2; 8] [1; 3] 12 black_] 0 10 1 5) as (file & M & P); try reflexivity; try discriminate; try lra.
  - exact chart_binary.
  - cbn. intuition discriminate.
  - split; reflexivity.
  - left. split; reflexivity.
  - exact chart2_text.
  - constructor.
  - constructor; [|constructor; [|constructor]].
    + constructor; cbn [sr_style sr_x sr_y sr_size sr_color ds_style ds_x ds_y ds_size ds_color]; try reflexivity; try discriminate.
      * eexists. split; [constructor|]. repeat (constructor; [chart_number|]). constructor.
      * eexists. split; [constructor|]. repeat (constructor; [chart_number|]). constructor.
      * apply (hex_color "f" "f" "8" "0" "0" "0" 15 15 8 0 0 0); vm_compute; auto.
    + constructor; cbn [sr_style sr_x sr_y sr_size sr_color ds_style ds_x ds_y ds_size ds_color]; try reflexivity; try discriminate.
      * eexists. split; [constructor|]. repeat (constructor; [chart_number|]). constructor.
      * eexists. split; [constructor|]. repeat (constructor; [chart_number|]). constructor.
      * split; [|lra]. exists 2%nat. split; [|reflexivity]. apply (prefix_int (s_ "12px") 12 (s_ "12")); (reflexivity || discriminate).
      * constructor.
  - apply (range_given chart_world (s_ "0") (s_ "10") 1 2).
    + apply (prefix_int (s_ "0") 0 (s_ "0")); (reflexivity || discriminate).
    + apply (prefix_int (s_ "10") 10 (s_ "10")); (reflexivity || discriminate).
    + cbn. intros v H. decompose [or] H; subst; try lra; contradiction.
  - constructor.
    + split; [cbn; auto|]. cbn. intros v H. decompose [or] H; subst; try lra; contradiction.
    + split; [cbn; auto|]. cbn. intros v H. decompose [or] H; subst; try lra; contradiction.
    + apply is32_int. reflexivity.
    + apply is32_int. reflexivity.
  - exists file. split; [exact M|].
    assert (Q : forall x y, in_file 0 10 1 5 1600 800 (x, y) = (160 * x, 800 - 200 * (y - 1))) by (intros; unfold in_file, along; cbn [fst snd]; f_equal; lra).
    unfold chart_picture in P. cbn [flat_map map combine ds_x ds_y series_paints ds_style ds_size ds_color app] in P. rewrite !Q in P.
    replace (160 * 1) with 160 in P by lra. replace (160 * 2) with 320 in P by lra. replace (160 * 4) with 640 in P by lra. replace (160 * 8) with 1280 in P by lra.
    replace (800 - 200 * (1 - 1)) with 800 in P by lra. replace (800 - 200 * (3 - 1)) with 400 in P by lra. replace (800 - 200 * (5 - 1)) with 0 in P by lra.
    replace (12 / 2) with 6 in P by lra. exact P.
Qed.
