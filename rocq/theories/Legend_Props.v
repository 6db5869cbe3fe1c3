(** Theorems about legends: C46, C65, C66. *)
From Verif Require Import Base Num Sexpr_Model Geo_Model Geo_Proofs Legend_Model Legend_Spec Legend_Proofs.
From Coq Require Import Lra Permutation.
Local Open Scope R_scope.

(* ------------------------------------------------------------------ C46 *)
(** C46. [rect_of] embeds a real box and [sizes] a list of real sizes in the model's numbers.
    One item per row: the boxes have the items' sizes, start at the left, lie below each other
    in item order with the padding between them, and the extent is the smallest that covers
    them. *)
Theorem C46_rows : forall (pad : R) (items : list (R * R)), 0 <= pad -> Forall nonneg items ->
  exists W H bs, layout_rows exact (Fin pad) (sizes items) = (Fin W, Fin H, map rect_of bs) /\
    map size bs = items /\ Forall (fun b => left_ b = 0) bs /\ ForallOrdPairs (under pad) bs /\
    ForallOrdPairs disjoint bs /\ Forall (within W H) bs /\
    match bs with
    | [] => W = 0 /\ H = 0
    | b :: _ => top_ b = 0 /\ (W = 0 \/ Exists (fun b => width b = W) bs) /\ Exists (fun b => top_ b + height b = H) bs
    end.
Proof.
  intros pad items P F. destruct (rows_ok pad items P F 0 0) as (W & H & bs & Q & S1 & O & B & L1 & L2 & T1 & T2); try lra.
  exists W, H, bs. split; [exact Q|]. split; [exact S1|]. split; [|split; [exact O|split; [|split]]].
  - eapply Forall_impl; [|exact B]. cbv beta. tauto.
  - clear - O. induction O as [|a l F _ IH]; constructor; [|exact IH]. eapply Forall_impl; [|exact F].
    intros b [A _] x y. lra.
  - eapply Forall_impl; [|exact B]. cbv beta. unfold within. intros b K. lra.
  - destruct bs as [|b r]; [split; [|exact T2]|].
    + destruct T1 as [T1|T1]; [exact T1|inversion T1].
    + split; [|split; assumption]. clear - Q. destruct items as [|[w h] items]; [discriminate Q|].
      unfold layout_rows in Q. cbn [sizes map rows_ fst snd] in Q. rewrite xlt_fin2 in Q. destruct (Rlt_dec 0 0) as [Z|Z]; [lra|].
      destruct (rows_ _ _ _ _ _) as [[? ?] ?]. injection Q as _ _ _ Q _ _ _. lra.
Qed.
Print Assumptions C46_rows.
Example C46_rows_example : Forall nonneg [(3, 1); (2, 2)] /\
  layout_rows exact (Fin 1) (sizes [(3, 1); (2, 2)]) = (Fin 3, Fin 4, map rect_of [mk_box 0 0 3 1; mk_box 0 2 2 2]).
Proof.
  split; [repeat constructor; cbn; lra|]. unfold layout_rows. cbn [sizes map rows_ fst snd]. rewrite !xlt_fin2.
  destruct (Rlt_dec 0 0) as [Z|Z]; [lra|]. rewrite add_ex, xlt_fin2. destruct (Rlt_dec 0 (0 + 1)) as [Y|Y]; [|lra].
  rewrite !add_ex, !xmax_fin. unfold rect_of. cbn [left_ top_ width height].
  rewrite (Rmax_right 0 3), (Rmax_left 3 2) by lra. repeat f_equal; lra.
Qed.

(** C46. Flowing items: the boxes have the items' widths and at least their heights; in item
    order, each is beside its predecessors in the same row or below them; no two overlap, all
    are within the extent, and only a box that starts a row may exceed the limit. *)
Theorem C46_flow : forall (limit : option R) (rp cp : R) (items : list (R * R)), 0 <= rp -> 0 <= cp -> Forall nonneg items ->
  exists W H bs, layout_flow exact (option_map Fin limit) (Fin rp) (Fin cp) (sizes items) = (Fin W, Fin H, map rect_of bs) /\
    map width bs = map fst items /\ Forall2 Rle (map snd items) (map height bs) /\
    ForallOrdPairs (fun a b => beside cp a b \/ under rp a b) bs /\ ForallOrdPairs disjoint bs /\ Forall (within W H) bs /\
    Forall (fun b => left_ b = 0 \/ fits limit (left_ b + width b)) bs.
Proof.
  intros limit rp cp items RP CP F.
  destruct (flow_ok limit rp cp RP CP items F 0 0 0 0 [] []) as (W & H & bs & Q & O & B & FF & WW & HH).
  { constructor; try lra; constructor. }
  exists W, H, bs. split; [exact Q|]. split; [exact WW|]. split; [exact HH|]. split; [exact O|]. split; [|split; [exact B|exact FF]].
  clear - O. induction O as [|a l F _ IH]; constructor; [|exact IH]. eapply Forall_impl; [|exact F].
  intros b [(A1 & A2 & A3 & _)|[A _]] x y; lra.
Qed.
Print Assumptions C46_flow.

(** C46. Each item follows its predecessor: directly beside it, if there it ends within the
    limit, and otherwise at the start of the next row. The first starts at the top left. *)
Theorem C46_flow_order_partial : forall (limit : option R) (rp cp : R) (items : list (R * R)), 0 <= rp -> 0 <= cp -> Forall nonneg items ->
  exists W H bs, layout_flow exact (option_map Fin limit) (Fin rp) (Fin cp) (sizes items) = (Fin W, Fin H, map rect_of bs) /\
    chain (next limit rp cp) bs /\
    match bs with
    | [] => True
    | b :: _ => left_ b = 0 /\ (fits limit (width b) -> top_ b = 0) /\ (~ fits limit (width b) -> top_ b = rp)
    end.
Proof.
  intros limit rp cp items RP CP F.
  apply (flow_chain limit rp cp items F 0 0 0 0 [] []).
  constructor; try exact I; try constructor; try reflexivity;
    try (match goal with H : _ = _ ++ [_] |- _ => destruct (app_cons_not_nil _ _ _ H) end); auto.
  intros l a E. destruct (app_cons_not_nil _ _ _ E).
Qed.
Print Assumptions C46_flow_order_partial.

(** C46. Without a limit there is one row. *)
Theorem C46_one_row : forall (rp cp : R) (items : list (R * R)), 0 <= rp -> 0 <= cp -> Forall nonneg items ->
  exists W H bs, layout_flow exact None (Fin rp) (Fin cp) (sizes items) = (Fin W, Fin H, map rect_of bs) /\
    Forall (fun b => top_ b = 0) bs.
Proof.
  intros rp cp items RP CP F. destruct (C46_flow_order_partial None rp cp items RP CP F) as (W & H & bs & Q & C & T).
  exists W, H, bs. split; [exact Q|]. destruct bs as [|b r]; [constructor|]. destruct T as (_ & T & _). specialize (T I).
  clear Q. constructor; [exact T|]. revert b T C. induction r as [|c r IH]; intros b T C; [constructor|]. destruct C as [C1 C2]. constructor.
  - destruct C1 as [(_ & _ & C1 & _)|(N & _)]; [congruence|]. now destruct N.
  - apply (IH c); [|exact C2]. destruct C1 as [(_ & _ & C1 & _)|(N & _)]; [congruence|]. now destruct N.
Qed.
Print Assumptions C46_one_row.

(** C46, what is missing above: a first item that is wider than the limit does not start at the
    top: an empty row and its padding are put before it. *)
Theorem C46_wide_first_refuted : exists (limit rp cp : R) (items : list (R * R)),
  0 <= rp /\ 0 <= cp /\ Forall nonneg items /\
  layout_flow exact (Some (Fin limit)) (Fin rp) (Fin cp) (sizes items) = (Fin 5, Fin 3, map rect_of [mk_box 0 2 5 1]).
Proof.
  exists 4, 2, 1, [(5, 1)]. split; [lra|]. split; [lra|]. split; [repeat constructor; cbn; lra|].
  unfold layout_flow. cbn [sizes map flow_ fst snd]. rewrite xlt_fin2. destruct (Rlt_dec 0 0) as [Z|Z]; [lra|].
  rewrite add_ex, xlt_fin2. destruct (Rlt_dec 4 (0 + 5)) as [Y|Y]; [|lra].
  cbn [app map]. rewrite !add_ex, !xmax_fin. unfold with_h, rect_of. cbn [rx ry rw rh left_ top_ width height].
  rewrite (Rmax_right 0 (0 + 5)), (Rmax_right 0 1), add_ex by lra. repeat f_equal; lra.
Qed.
Print Assumptions C46_wide_first_refuted.

(** C46. What is drawn for a legend with real settings: [sides c t r b l] for margins and
    padding; the legend's box is inside the plot area reduced by the margins; the items' boxes
    do not overlap and, if the extent of the layout is available, are inside the legend's box. *)
Definition sides (s : xr * xr * xr * xr) (t r b l : R) : Prop :=
  s = (Fin t, Fin r, Fin b, Fin l) /\ 0 <= t /\ 0 <= r /\ 0 <= b /\ 0 <= l.
Lemma layout_real c items rp cp t r b l pw ph : lg_row_pad c = Fin rp -> lg_col_pad c = Fin cp -> 0 <= rp -> 0 <= cp ->
  sides (lg_padding c) t r b l -> Forall nonneg items ->
  exists W H bs, legend_layout exact c (sizes items) (Some (Fin pw)) (Some (Fin ph)) = Ret (Fin (W + r + l), Fin (H + t + b), map rect_of bs) /\
    good_layout items W H bs /\ 0 <= W /\ 0 <= H.
Proof.
  intros E1 E2 RP CP [E3 S] F. unfold legend_layout. rewrite E1, E2, E3, add_ex, sub_ex.
  assert (X : exists W H bs, (if lg_flow c then layout_flow exact (Some (Fin (pw - (r + l)))) (Fin rp) (Fin cp) (sizes items)
      else layout_rows exact (Fin rp) (sizes items)) = (Fin W, Fin H, map rect_of bs) /\ good_layout items W H bs /\ 0 <= W /\ 0 <= H).
  { destruct (lg_flow c).
    - destruct (C46_flow (Some (pw - (r + l))) rp cp items RP CP F) as (W & H & bs & Q & WW & HH & _ & D & I & _).
      exists W, H, bs. split; [exact Q|]. split; [repeat split; assumption|].
      destruct items as [|it items]; [cbn in Q; injection Q as Q1 Q2 _; unfold exact in Q2; lra|]. destruct bs as [|b0 bs]; [discriminate WW|].
      inversion I as [|? ? (I1 & I2 & I3 & I4) _]; subst. inversion F as [|? ? [N1 N2] _]; subst. inversion HH; subst. injection WW as WW _. lra.
    - destruct (C46_rows rp items RP F) as (W & H & bs & Q & SZ & _ & _ & D & I & T).
      exists W, H, bs. split; [exact Q|]. split; [|].
      + repeat split; try assumption.
        * rewrite <- SZ, map_map. reflexivity.
        * rewrite <- SZ, map_map. cbn. clear. induction bs; cbn; constructor; [lra|assumption].
      + destruct bs as [|b0 bs]; [lra|]. destruct items as [|it items]; [discriminate SZ|].
        inversion I as [|? ? (I1 & I2 & I3 & I4) _]; subst. inversion F as [|? ? [N1 N2] _]; subst. injection SZ as SZ _. subst it. cbn in *. lra. }
  destruct X as (W & H & bs & -> & G & P1 & P2). exists W, H, bs. split; [|auto]. rewrite !add_ex. reflexivity.
Qed.
Theorem C46_drawn_partial : forall (c : legend) (clip : area) (items : list (R * R)) (rp cp mt mr mb ml pt pr pb pl : R),
  lg_row_pad c = Fin rp -> lg_col_pad c = Fin cp -> 0 <= rp -> 0 <= cp ->
  sides (lg_margins c) mt mr mb ml -> sides (lg_padding c) pt pr pb pl ->
  ml + mr <= aw clip -> mt + mb <= ah clip -> Forall nonneg items ->
  let room := inset clip mt mr mb ml in
  exists ew eh bs B qs,
    legend_layout exact c (sizes items) (Some (Fin (aw room))) (Some (Fin (ah room))) = Ret (Fin ew, Fin eh, bs) /\
    plot_legend exact c (page clip) (sizes items) = Ret (page B, map page qs) /\
    map aw qs = map fst items /\ Forall2 Rle (map snd items) (map ah qs) /\ ForallOrdPairs apart qs /\
    contains room B /\ (ew <= aw room -> eh <= ah room -> Forall (contains B) qs).
Proof.
  intros c clip items rp cp mt mr mb ml pt pr pb pl E1 E2 RP CP M P MW MH F room.
  destruct (layout_real c items rp cp pt pr pb pl (aw room) (ah room) E1 E2 RP CP P F) as (W & H & bs & Q & (G1 & G2 & G3 & G4) & W0 & H0).
  destruct M as [M M'], P as [P P'].
  exists (W + pr + pl), (H + pt + pb), (map rect_of bs).
  unfold plot_legend. rewrite M, margin_page by assumption. fold room. rewrite P. change (rw (page room)) with (Fin (aw room)).
  change (rh (page room)) with (Fin (ah room)). rewrite Q. cbn [bind fst snd].
  set (BW := Rmin (W + pr + pl) (aw room)). set (BH := Rmin (H + pt + pb) (ah room)).
  assert (RW : 0 <= aw room /\ 0 <= ah room) by (cbn; lra).
  assert (B1 : 0 <= BW <= aw room) by (unfold BW; split; [apply Rmin_glb; lra|apply Rmin_r]).
  assert (B2 : 0 <= BH <= ah room) by (unfold BH; split; [apply Rmin_glb; lra|apply Rmin_r]).
  set (X := match lg_h c with HLeft => ax room | HCenter => ax room + aw room * / 2 - BW * / 2 | HRight => ax room + aw room - BW end).
  set (Y := match lg_v c with VTop => ay room + ah room - BH | VCenter => ay room + ah room * / 2 - BH * / 2 | VBottom => ay room end).
  assert (BB : border_box exact c (page room) (Fin (W + pr + pl)) (Fin (H + pt + pb)) = page (mk_area X Y BW BH)).
  { unfold border_box, page. cbn [rx ry rw rh ax ay aw ah]. rewrite !xmin_fin. fold BW BH. rewrite !mul_ex, !add_ex, !sub_ex.
    unfold X, Y. destruct (lg_h c), (lg_v c); reflexivity. }
  rewrite BB. exists (mk_area X Y BW BH).
  assert (IN : contains room (mk_area X Y BW BH)).
  { unfold contains. cbn [ax ay aw ah]. unfold X, Y. destruct (lg_h c), (lg_v c); lra. }
  assert (exists C, layout_margin_box exact (page (mk_area X Y BW BH)) (Fin pt) (Fin pr) (Fin pb) (Fin pl) = page C /\
     (W + pr + pl <= aw room -> H + pt + pb <= ah room -> C = inset (mk_area X Y BW BH) pt pr pb pl /\ aw C = W /\ ah C = H)) as (C & EC & FC).
  { exists (mk_area (X + pl) (Y + pb) (Rmax (BW - (pl + pr)) 0) (Rmax (BH - (pt + pb)) 0)).
    split; [unfold layout_margin_box; cbn [page rx ry rw rh ax ay aw ah]; rewrite !add_ex, !sub_ex, !xmax_fin; reflexivity|].
    intros L1 L2. unfold inset. cbn [ax ay aw ah].
    assert (BW = W + pr + pl) by (unfold BW; apply Rmin_left; lra).
    assert (BH = H + pt + pb) by (unfold BH; apply Rmin_left; lra).
    rewrite !Rmax_left by lra. repeat split; lra. }
  exists (map (on_page C) bs). split; [reflexivity|]. split; [|split; [|split; [|split; [|split]]]].
  - rewrite EC, !map_map. do 2 f_equal. 
  - rewrite map_map. exact G1.
  - rewrite map_map. exact G2.
  - clear - G3. induction G3 as [|a l F0 _ IH]; cbn [map]; constructor; [|exact IH]. rewrite Forall_map. eapply Forall_impl; [|exact F0].
    intros b. apply disjoint_apart.
  - exact IN.
  - intros L1 L2. destruct (FC L1 L2) as (EQ & AW & AH). rewrite Forall_map. eapply Forall_impl; [|exact G4].
    intros b (I1 & I2 & I3 & I4). unfold contains, on_page. cbn [ax ay aw ah]. rewrite AW in *. rewrite AH in *.
    assert (ax C = X + pl) by (rewrite EQ; reflexivity). assert (ay C = Y + pb) by (rewrite EQ; reflexivity).
    assert (aw C = BW - (pl + pr)) by (rewrite EQ; reflexivity). assert (ah C = BH - (pt + pb)) by (rewrite EQ; reflexivity). lra.
Qed.
Print Assumptions C46_drawn_partial.

Definition plain (h : halign) (v : valign) (flow : bool) : legend :=
  mk_legend h v (Fin 1) (Fin 1) flow (Fin 0, Fin 0, Fin 0, Fin 0) (Fin 1, Fin 1, Fin 1, Fin 1) (Fin 1, Fin 0, Fin 0, Fin 0).
Example C46_drawn_example : let c := plain HRight VTop true in
  sides (lg_margins c) 0 0 0 0 /\ sides (lg_padding c) 1 1 1 1 /\ Forall nonneg [(3, 1); (2, 2)].
Proof. repeat split; cbn; try lra. repeat constructor; cbn; lra. Qed.

(** C46, what is missing above: a legend that does not fit is cut to the available height, but
    its items are not: here the second item is drawn below the plot area. *)
Theorem C46_overflow_refuted : exists (c : legend) (clip : area) (items : list (R * R)) (B q1 q2 : area),
  Forall nonneg items /\ plot_legend exact c (page clip) (sizes items) = Ret (page B, [page q1; page q2]) /\
  contains clip B /\ ay q2 + ah q2 < ay clip.
Proof.
  exists (plain HLeft VTop false), (mk_area 0 0 10 10), [(3, 9); (3, 4)], (mk_area 0 0 5 10), (mk_area 1 0 3 9), (mk_area 1 (-5) 3 4).
  split; [repeat constructor; cbn; lra|]. split; [|split; [unfold contains; cbn; lra|cbn; lra]].
  unfold plot_legend, plain. cbn [lg_margins lg_padding].
  rewrite margin_page by (cbn; lra). unfold inset. cbn [ax ay aw ah page rw rh].
  unfold legend_layout. cbn [lg_padding lg_flow lg_row_pad]. unfold layout_rows. cbn [sizes map rows_ fst snd].
  rewrite !xlt_fin2. destruct (Rlt_dec 0 0) as [Z|Z]; [lra|]. rewrite add_ex, xlt_fin2. destruct (Rlt_dec 0 (0 + 9)) as [Y|Y]; [|lra].
  rewrite !add_ex, !xmax_fin. cbn [bind].
  unfold border_box. cbn [page rx ry rw rh ax ay aw ah lg_h lg_v]. rewrite !xmin_fin, !add_ex, !sub_ex.
  rewrite (Rmax_right 0 3), (Rmax_left 3 3) by lra. rewrite ?xmin_fin. rewrite (Rmin_left (3 + 1 + 1) (10 - (0 + 0))) by lra.
  rewrite (Rmin_right (0 + 9 + 1 + 4 + 1 + 1) (10 - (0 + 0))) by lra.
  unfold layout_margin_box. cbn [rx ry rw rh]. rewrite !add_ex, !sub_ex, !xmax_fin, !Rmax_left by lra.
  unfold place, page. cbn [map rx ry rw rh ax ay aw ah]. rewrite !add_ex, !sub_ex. repeat f_equal; lra.
Qed.
Print Assumptions C46_overflow_refuted.
(** C46. A label with its margin fills its item's box: whichever side it is aligned to, text
    drawn from the anchor ends at the other side. *)
Theorem C46_label : forall (lw lh margin x y : R) (a : halign),
  exists w h px, item_size exact (Fin lw) (Fin lh) (Fin margin) = (Fin w, Fin h) /\ h = lh /\
    anchor exact a (Fin margin) (mk_rect (Fin x) (Fin y) (Fin w) (Fin h)) = mk_vec2 (Fin px) (Fin (y + h / 2)) /\
    (a = HLeft -> px = x + margin /\ px + lw = x + w) /\ (a = HRight -> px = x + w - margin /\ px - lw = x).
Proof.
  intros. unfold item_size. rewrite !add_ex. exists (0 + lw + margin), (0 + lh).
  exists (match a with HRight => x + (0 + lw + margin) - margin | _ => x + margin end).
  split; [reflexivity|]. split; [lra|]. split; [destruct a; reflexivity|]. split; intros ->; lra.
Qed.
Print Assumptions C46_label.
(** C46, what is missing above: the layout function accepts a limit for the height alone, which
    is undefined. *)
Theorem C46_height_only_refuted : forall (d : R -> R) (c : legend) (items : list (xr * xr)) (h : xr),
  legend_layout d c items None (Some h) = UB.
Proof. intros. unfold legend_layout. destruct (lg_padding c) as [[[? ?] ?] ?]. reflexivity. Qed.
Print Assumptions C46_height_only_refuted.

(* ------------------------------------------------------------------ C65 *)
(** C65. The legend's box has the needed size, cut to the room, and touches the chosen sides of
    the room, or is centered. *)
Definition gap_left (room B : area) : R := ax B - ax room.
Definition gap_right (room B : area) : R := ax room + aw room - (ax B + aw B).
Definition gap_below (room B : area) : R := ay B - ay room.
Definition gap_above (room B : area) : R := ay room + ah room - (ay B + ah B).
Theorem C65_corner : forall (c : legend) (room : area) (ew eh : R), 0 <= ew -> 0 <= eh -> 0 <= aw room -> 0 <= ah room ->
  exists B, border_box exact c (page room) (Fin ew) (Fin eh) = page B /\ contains room B /\
    aw B = Rmin ew (aw room) /\ ah B = Rmin eh (ah room) /\
    match lg_h c with HLeft => gap_left room B = 0 | HRight => gap_right room B = 0 | HCenter => gap_left room B = gap_right room B end /\
    match lg_v c with VTop => gap_above room B = 0 | VBottom => gap_below room B = 0 | VCenter => gap_above room B = gap_below room B end.
Proof.
  intros c room ew eh E1 E2 R1 R2.
  pose proof (Rmin_r ew (aw room)) as M1. pose proof (Rmin_r eh (ah room)) as M2.
  assert (N1 : 0 <= Rmin ew (aw room)) by (apply Rmin_glb; lra). assert (N2 : 0 <= Rmin eh (ah room)) by (apply Rmin_glb; lra).
  exists (mk_area match lg_h c with HLeft => ax room | HCenter => ax room + aw room * / 2 - Rmin ew (aw room) * / 2 | HRight => ax room + aw room - Rmin ew (aw room) end
    match lg_v c with VTop => ay room + ah room - Rmin eh (ah room) | VCenter => ay room + ah room * / 2 - Rmin eh (ah room) * / 2 | VBottom => ay room end
    (Rmin ew (aw room)) (Rmin eh (ah room))).
  split; [|split; [|split; [reflexivity|split; [reflexivity|]]]].
  - unfold border_box, page. cbn [rx ry rw rh ax ay aw ah]. rewrite !xmin_fin, !mul_ex, !add_ex, !sub_ex.
    destruct (lg_h c), (lg_v c); reflexivity.
  - unfold contains. cbn [ax ay aw ah]. destruct (lg_h c), (lg_v c); lra.
  - unfold gap_left, gap_right, gap_above, gap_below. cbn [ax ay aw ah]. destruct (lg_h c), (lg_v c); split; lra.
Qed.
Print Assumptions C65_corner.
Example C65_corner_example : exists B, border_box exact (plain HCenter VBottom true) (page (mk_area 1 1 8 4)) (Fin 4) (Fin 2) = page B /\ ax B = 3 /\ ay B = 1.
Proof.
  destruct (C65_corner (plain HCenter VBottom true) (mk_area 1 1 8 4) 4 2) as (B & E & _ & W & H & X & Y); cbn; try lra.
  exists B. split; [exact E|]. cbn in *. unfold gap_left, gap_right, gap_below in *. cbn in *. rewrite Rmin_left in W by lra. lra.
Qed.

(** C65. A border is drawn exactly if its width is positive, along a whole edge of the box;
    right and left ones are at the right and left edge. *)
Definition corner (B : area) (right up : bool) : vec2 :=
  mk_vec2 (Fin (if right then ax B + aw B else ax B)) (Fin (if up then ay B + ah B else ay B)).
Theorem C65_borders_partial : forall (c : legend) (B : area) (t r b l : R) (i : nat) (e : vec2 * vec2),
  lg_borders c = (Fin t, Fin r, Fin b, Fin l) ->
  (In (i, e) (borders exact c (page B)) <->
   (i = 0%nat /\ 0 < t /\ e = (corner B false false, corner B true false)) \/
   (i = 1%nat /\ 0 < r /\ e = (corner B true false, corner B true true)) \/
   (i = 2%nat /\ 0 < b /\ e = (corner B false true, corner B true true)) \/
   (i = 3%nat /\ 0 < l /\ e = (corner B false false, corner B false true))).
Proof.
  intros c B t r b l i e E. unfold borders, page. rewrite E. cbn [rx ry rw rh]. rewrite !add_ex, !xlt_fin2.
  assert (S : forall (q : R) n x, In (i, e) (if if Rlt_dec 0 q then true else false then [(n, x)] else []) <-> i = n /\ 0 < q /\ e = x).
  { intros q n x. destruct (Rlt_dec 0 q); cbn [In]; split; intros X; try tauto.
    - destruct X as [X|[]]. injection X as -> ->. auto.
    - destruct X as (-> & _ & ->). now left. }
  rewrite !in_app_iff, !S. reflexivity.
Qed.
Print Assumptions C65_borders_partial.
(** C65, what is missing above: the top border is drawn at the lower edge and the bottom border
    at the upper edge. *)
Theorem C65_border_sides_refuted : forall (c : legend) (B : area) (t r b l : R),
  lg_borders c = (Fin t, Fin r, Fin b, Fin l) ->
  (0 < t -> In (0%nat, (corner B false false, corner B true false)) (borders exact c (page B))) /\
  (0 < b -> In (2%nat, (corner B false true, corner B true true)) (borders exact c (page B))).
Proof.
  intros c B t r b l E. unfold borders, page. rewrite E. cbn [rx ry rw rh]. rewrite !add_ex, !xlt_fin2. split; intro.
  - destruct (Rlt_dec 0 t); [|lra]. now left.
  - destruct (Rlt_dec 0 b); [|lra]. apply in_or_app. right. apply in_or_app. right. now left.
Qed.
Print Assumptions C65_border_sides_refuted.

(* ------------------------------------------------------------------ C66 *)
(** C66. The position keywords, written with or without quotes. *)
Definition spell (w : word) : string :=
  match w with Wtop => "top" | Wbottom => "bottom" | Wleft => "left" | Wright => "right" | Wcenter => "center" end.
Definition written (e : expr) (w : word) : Prop := e = ELit (s_ (spell w)) \/ e = EVal (s_ (spell w)).
(** The last horizontal keyword decides, then center, then the setting before; the same
    vertically. *)
Definition horizontal (w : word) : option halign := match w with Wleft => Some HLeft | Wright => Some HRight | _ => None end.
Definition vertical (w : word) : option valign := match w with Wtop => Some VTop | Wbottom => Some VBottom | _ => None end.
Definition is_center (w : word) : bool := match w with Wcenter => true | _ => false end.
Fixpoint last_some {A B} (f : A -> option B) (l : list A) : option B :=
  match l with [] => None | a :: r => match last_some f r with Some b => Some b | None => f a end end.
Definition chosen {B} (f : word -> option B) (center old : B) (l : list word) : B :=
  match last_some f l with Some b => b | None => if existsb is_center l then center else old end.
Lemma position_gen es ws : Forall2 written es ws -> forall hs vs p,
  position_ es hs vs p = Ret
    (match last_some horizontal ws with Some b => b | None => if existsb is_center ws then (if hs then fst p else HCenter) else fst p end,
     match last_some vertical ws with Some b => b | None => if existsb is_center ws then (if vs then snd p else VCenter) else snd p end).
Proof.
  induction 1 as [|e w es ws E _ IH]; intros hs vs p; [cbn; destruct p; reflexivity|]. cbn [position_ last_some existsb].
  destruct w; destruct E as [->| ->]; cbn -[position_]; rewrite IH; cbn [fst snd];
    destruct (last_some horizontal ws), (last_some vertical ws), (existsb is_center ws), hs, vs; reflexivity.
Qed.
Theorem C66_position : forall (es : list expr) (ws : list word) (h : halign) (v : valign), Forall2 written es ws ->
  configure_position es (h, v) = Ret (chosen horizontal HCenter h ws, chosen vertical VCenter v ws).
Proof. intros es ws h v F. unfold configure_position. rewrite (position_gen es ws F). reflexivity. Qed.
Print Assumptions C66_position.

(** C66. Anything else is an error. *)
Theorem C66_other_words : forall (es : list expr) (p : halign * valign),
  (exists e, In e es /\ forall w, ~ written e w) -> configure_position es p = Err.
Proof.
  intros es p (e & I & N). unfold configure_position. generalize false at 1 as hs. generalize false as vs. revert p.
  induction es as [|a es IH]; [destruct I|]. intros p vs hs. cbn [position_].
  assert (W : forall s, is_word a s = true -> a = ELit (s_ s) \/ a = EVal (s_ s)).
  { intros s. unfold is_word. destruct a as [l|t|t]; try discriminate; destruct (str_eqb_spec t (s_ s)) as [E|E]; try discriminate; subst; auto. }
  destruct I as [->|I].
  - assert (X : forall w, is_word e (spell w) = false).
    { intro w. destruct (is_word e (spell w)) eqn:Q; [|reflexivity]. destruct (N w). exact (W _ Q). }
    pose proof (X Wtop) as X1. pose proof (X Wbottom) as X2. pose proof (X Wleft) as X3. pose proof (X Wright) as X4. pose proof (X Wcenter) as X5.
    cbn [spell] in *. rewrite X1, X2, X3, X4, X5. reflexivity.
  - destruct (is_word a "top"); [now apply IH|]. destruct (is_word a "bottom"); [now apply IH|].
    destruct (is_word a "left"); [now apply IH|]. destruct (is_word a "right"); [now apply IH|].
    destruct (is_word a "center"); [now apply IH|reflexivity].
Qed.
Print Assumptions C66_other_words.

(** C66. The order of the keywords does not matter if they do not contradict each other. *)
Definition consistent (ws : list word) : Prop := ~ (In Wleft ws /\ In Wright ws) /\ ~ (In Wtop ws /\ In Wbottom ws).
Lemma last_some_in {A B} (f : A -> option B) l b : last_some f l = Some b -> exists a, In a l /\ f a = Some b.
Proof.
  induction l as [|a l IH]; [discriminate|]. cbn. destruct (last_some f l).
  - intro E. destruct (IH E) as (x & I & F). exists x. auto.
  - intro E. exists a. auto.
Qed.
Lemma last_some_none {A B} (f : A -> option B) l : last_some f l = None -> forall a, In a l -> f a = None.
Proof.
  induction l as [|x l IH]; [intros _ a []|]. cbn. destruct (last_some f l); [discriminate|]. intros E a [<-|I]; auto.
Qed.
Theorem C66_order : forall (es es' : list expr) (ws ws' : list word) (h : halign) (v : valign),
  Forall2 written es ws -> Forall2 written es' ws' -> Permutation ws ws' -> consistent ws ->
  configure_position es (h, v) = configure_position es' (h, v).
Proof.
  intros es es' ws ws' h v F F' P [C1 C2]. rewrite (C66_position es ws h v F), (C66_position es' ws' h v F').
  assert (X : forall l l', Permutation l l' -> existsb is_center l = existsb is_center l').
  { induction 1; cbn; try congruence. destruct (is_center x), (is_center y); reflexivity. }
  assert (G : forall B (f : word -> option B) c o, (forall a b x y, In a ws -> In b ws -> f a = Some x -> f b = Some y -> x = y) ->
    chosen f c o ws = chosen f c o ws').
  { intros B f c o U. unfold chosen. destruct (last_some f ws) eqn:E1, (last_some f ws') eqn:E2.
    - destruct (last_some_in _ _ _ E1) as (a & I1 & A1). destruct (last_some_in _ _ _ E2) as (a' & I2 & A2).
      apply (U a a'); auto. apply (Permutation_in a' (Permutation_sym P)). exact I2.
    - destruct (last_some_in _ _ _ E1) as (a & I1 & A1). rewrite (last_some_none _ _ E2 a) in A1; [discriminate|]. now apply (Permutation_in a P).
    - destruct (last_some_in _ _ _ E2) as (a & I1 & A1). rewrite (last_some_none _ _ E1 a) in A1; [discriminate|]. now apply (Permutation_in a (Permutation_sym P)).
    - now rewrite (X ws ws' P). }
  rewrite (G _ horizontal), (G _ vertical); [reflexivity| |].
  - intros a b x y I1 I2 E1 E2. destruct a, b; try discriminate; cbn in E1, E2; try congruence; exfalso; apply C2; split; assumption.
  - intros a b x y I1 I2 E1 E2. destruct a, b; try discriminate; cbn in E1, E2; try congruence; exfalso; apply C1; split; assumption.
Qed.
Print Assumptions C66_order.
Example C66_example : configure_position [ELit (s_ "center"); EVal (s_ "left")] (HRight, VBottom) = Ret (HLeft, VCenter) /\
  consistent [Wcenter; Wleft] /\ configure_position [ELit (s_ "middle")] (HLeft, VTop) = Err.
Proof. split; [reflexivity|]. split; [|reflexivity]. split; intros [X Y]; cbn in *; intuition discriminate. Qed.
