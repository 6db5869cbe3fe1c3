(** Theorems about the legend command: C86. *)
From Coq Require Import Reals Lra.
From Verif Require Import Base Num Sexpr_Model Dispatch_Model Dispatch_Spec Data_Model Scale_Model Units_Model Color_Model
  Geo_Model Svg_Model Legend_Model Legend_Spec Legend_Proofs Legend_Props Plist_Model Cmd_Model Cmd_Spec Cmd_Proofs Style_Model Plot_Model Plot_Spec Axis_Model Eval_Model Eval_Spec Eval_Proofs Eval_Props Eval_Legend.
Local Open Scope R_scope.

Lemma rows_length d pad its : forall mw mh x y z, rows_ d pad its mw mh = (x, y, z) -> length z = length its.
Proof.
  induction its as [|[w h] its IH]; intros mw mh x y z Q; [injection Q as _ _ <-; reflexivity|]. cbn [rows_] in Q.
  destruct (rows_ d pad its _ _) as [[fw fh] b] eqn:R in Q. injection Q as _ _ <-. cbn [length]. f_equal. eapply IH, R.
Qed.
Lemma flow_length d m rp cp its : forall mw mh rw_ rh_ done row x y z, flow_ d m rp cp its mw mh rw_ rh_ done row = (x, y, z) ->
  length z = (length done + length row + length its)%nat.
Proof.
  induction its as [|[w h] its IH]; intros mw mh rw_ rh_ done row x y z Q; cbn [flow_] in Q.
  - injection Q as _ _ <-. rewrite app_length. cbn [length]. lia.
  - cbn [length]. destruct (match m with Some _ => _ | None => _ end); apply IH in Q; rewrite Q, map_length, ?app_length; cbn [length]; lia.
Qed.
Lemma boxes_length d g clip needs border boxes : plot_legend d g clip needs = Ret (border, boxes) -> length boxes = length needs.
Proof.
  unfold plot_legend. destruct (lg_margins g) as [[[? ?] ?] ?]. intro A. inv_bind A. destruct v as [[ew eh] bs]. destruct (lg_padding g) as [[[? ?] ?] ?] eqn:P.
  injection A as _ <-. rewrite map_length. unfold legend_layout in A0. rewrite P in A0. destruct (lg_flow g).
  - destruct (layout_flow d _ _ _ needs) as [[? ?] ?] eqn:Q in A0. injection A0 as _ _ <-. now apply flow_length in Q.
  - destruct (layout_rows d _ needs) as [[? ?] ?] eqn:Q in A0. injection A0 as _ _ <-. now apply rows_length in Q.
Qed.
Lemma legend_background W E e c : run (legend_table W E) e (legend0 W E) = Ret c ->
  match last_args (s_ "background") e with Some a => exists v, rd_color W E a black = Ret v /\ k_bg c = Some v | None => k_bg c = None end.
Proof.
  intro H. apply (run_proj_last k_bg _ "background" (fun a => let* v := rd_color W E a black in Ret (Some v))) in H.
  - unfold last_or in H. destruct (last_args (s_ "background") e); [|exact H]. inv_bind H. injection H as H. eauto.
  - legend_projection.
Qed.
Lemma Forall2_weaken {A B} (P Q : A -> B -> Prop) l m : (forall a b, P a b -> Q a b) -> Forall2 P l m -> Forall2 Q l m.
Proof. intros I. induction 1; constructor; auto. Qed.

(** C86. What a legend draws: the background if there is one, the borders, and every item, in
    order, in a box of its own. *)
Theorem C86_legend : forall (W : world) (E : env) (p : plot) (e : list expr) (out : list draw_command),
  legend_cmd W E p e = Ret out ->
  exists items needs g styles border boxes bg lines parts,
    Forall2 (item_of W E) (all_args "item" e) items /\ Forall2 (item_needs W E) items needs /\ legend_of W E e g styles /\
    plot_legend (w_d W) g (plot_clip W E p) needs = Ret (border, boxes) /\ length boxes = length items /\
    match last_args (s_ "background") e with
    | Some a => exists c, rd_color W E a black = Ret c /\ bg = [shape_of (add_rectangle (w_d W) [] border) stroke0 (solid c) None]
    | None => bg = []
    end /\
    lines = map (fun side => segment (fst (snd side)) (snd (snd side)) (s_width (side4 styles (fst side))) (s_color (side4 styles (fst side))))
      (borders (w_d W) g border) /\
    Forall2 (fun ib part => item_drawn W E (fst ib) (snd ib) part) (combine items boxes) parts /\
    out = bg ++ lines ++ concat parts.
Proof.
  intros W E p e out H. unfold legend_cmd in H. inv_bind H. rename v into c. unfold legend_draw in H. inv_bind H. rename v into needs.
  inv_bind H. destruct v as [border boxes]. inv_bind H. injection H as <-.
  apply draw_each_ok in A2 as (parts & F & ->). apply forM_ok in A0.
  exists (k_items c), needs, (geometry c), (k_borders c), border, boxes,
    (match k_bg c with Some col => [shape_of (add_rectangle (w_d W) [] border) stroke0 (solid col) None] | None => [] end),
    (map (fun side => segment (fst (snd side)) (snd (snd side)) (s_width (side4 (k_borders c) (fst side))) (s_color (side4 (k_borders c) (fst side)))) (borders (w_d W) (geometry c) border)), parts.
  split; [exact (legend_items W E e c A)|]. split.
  { eapply Forall2_weaken; [|exact A0]. intros i s Q. unfold item_extent in Q. inv_bind Q. injection Q as <-. unfold item_needs. eauto. }
  split; [exact (legend_measures W E e c A)|]. split; [exact A1|]. split.
  { rewrite (boxes_length _ _ _ _ _ _ A1). clear - A0. induction A0; cbn; auto. }
  split; [|split; [reflexivity|split; [|]]].
  - pose proof (legend_background W E e c A) as B. destruct (last_args (s_ "background") e).
    + destruct B as (v & R & ->). eauto.
    + now rewrite B.
  - eapply Forall2_weaken; [|exact F]. intros [i b] part Q. cbn [fst snd] in *. unfold item_draw in Q. inv_bind Q. inv_bind Q. injection Q as <-. unfold item_drawn. eauto.
  - reflexivity.
Qed.
Print Assumptions C86_legend.

(** C86. Without rounding, where the measures are not negative and the margins fit: the box of the
    legend is inside the plot area, no two items overlap, and if the needed room is available
    every item is inside the box of the legend. *)
Theorem C86_inside : forall (W : world) (E : env) (p : plot) (e : list expr) (out : list draw_command) (clip : area),
  exact_world W -> legend_cmd W E p e = Ret out -> plot_clip W E p = page clip ->
  exists items g styles,
    Forall2 (item_of W E) (all_args "item" e) items /\ legend_of W E e g styles /\
    forall rp cp mt mr mb ml pt pr pb pl rooms,
      lg_row_pad g = Fin rp -> lg_col_pad g = Fin cp -> 0 <= rp -> 0 <= cp ->
      Legend_Props.sides (lg_margins g) mt mr mb ml -> Legend_Props.sides (lg_padding g) pt pr pb pl ->
      ml + mr <= aw clip -> mt + mb <= ah clip -> Forall nonneg rooms -> Forall2 (item_needs W E) items (sizes rooms) ->
      exists ew eh B areas parts lines,
        Forall2 (fun ia part => item_drawn W E (fst ia) (page (snd ia)) part) (combine items areas) parts /\ length areas = length items /\
        out = lines ++ concat parts /\
        contains clip B /\ ForallOrdPairs apart areas /\ map aw areas = map fst rooms /\ Forall2 Rle (map snd rooms) (map ah areas) /\
        (exists bs, legend_layout exact g (sizes rooms) (Some (Fin (aw clip - (ml + mr)))) (Some (Fin (ah clip - (mt + mb)))) = Ret (Fin ew, Fin eh, bs)) /\
        (ew <= aw clip - (ml + mr) -> eh <= ah clip - (mt + mb) -> Forall (contains B) areas).
Proof.
  intros W E p e out clip [Xd Xf] H C. destruct (C86_legend W E p e out H) as (items & needs & g & styles & border & boxes & bg & lines & parts & I & N & G & L & Len & _ & _ & D & O).
  exists items, g, styles. split; [exact I|]. split; [exact G|].
  intros rp cp mt mr mb ml pt pr pb pl rooms E1 E2 RP CP M P MW MH F N'.
  assert (S : needs = sizes rooms).
  { clear - N N'. revert N'. generalize (sizes rooms). induction N as [|i n items needs (b & Q & ->) N IH]; intros l N'; inversion N' as [|? ? ? ? (b' & Q' & ->) N2]; subst; [reflexivity|].
    rewrite Q in Q'. injection Q' as ->. f_equal. now apply IH. }
  subst needs. rewrite Xd, C in L.
  destruct (C46_drawn_partial g clip rooms rp cp mt mr mb ml pt pr pb pl E1 E2 RP CP M P MW MH F) as (ew & eh & bs & B & qs & Lay & Q & Q1 & Q2 & Q3 & Q4 & Q5).
  rewrite L in Q. injection Q as -> ->. exists ew, eh, B, qs, parts, (bg ++ lines). split.
  - clear - D. revert qs parts D. induction items as [|i items IH]; intros qs parts D; [inversion D; constructor|].
    destruct qs as [|q qs]; [inversion D; constructor|]. cbn [map combine] in *. inversion D; subst. constructor; [assumption|]. now apply IH.
  - split; [now rewrite map_length in Len|]. split; [now rewrite O, app_assoc|]. split.
    + destruct M as [_ M]. unfold contains, inset in Q4. cbn in Q4. unfold contains. lra.
    + repeat split; try assumption. eexists. exact Lay.
Qed.
Print Assumptions C86_inside.
