(** C103: pictures. *)
From Coq Require Import Reals Lra.
From Verif Require Import Base Num Color_Model Geo_Model Geo_Spec Geo_Proofs Geo_Props Units_Model Svg_Model Raster_Model Raster_Spec.
Local Open Scope R_scope.

Lemma effects_app a : forall b x, effects (a ++ b) x = let '(y, l) := effects a x in let '(z, m) := effects b y in (z, l ++ m).
Proof.
  induction a as [|k a IH]; intros b x; cbn [app effects]; [now destruct (effects b x)|].
  destruct (effect k x) as [y l]. rewrite IH. destruct (effects a y) as [z m]. destruct (effects b z). now rewrite app_assoc.
Qed.
(** A context without transformation and without error. *)
Definition calm (x : context) : Prop := x_ctm x = None /\ x_error x = false.
Lemma set_path_effects d h p : straight p -> forall x, calm x -> exists y,
  effects (set_path d h p) x = (y, []) /\ x_path y = upside d h p /\ calm y /\
  x_source y = x_source x /\ x_dash y = x_dash x /\ x_width y = x_width x.
Proof.
  intros S [src q da wi m fa si er] [C1 C2]. cbn in C1, C2. subst m er. unfold set_path. cbn [effects effect x_source x_dash x_width]. clear q.
  assert (G : forall q, exists y, effects (flat_map (set_path_cmd d h) p) (mk_ctx src q da wi None fa si false) = (y, []) /\ x_path y = q ++ upside d h p /\ calm y /\
      x_source y = src /\ x_dash y = da /\ x_width y = wi).
  { induction p as [|c p IH]; intro q.
    - cbn. eexists. split; [reflexivity|]. rewrite app_nil_r. cbn. repeat split.
    - assert (Sp : straight p) by (intros z I; apply S; now right). specialize (S c (or_introl eq_refl)).
      destruct (IH Sp (q ++ [up_cmd d h c])) as (y & E & Py & R). exists y. split; [|rewrite Py, <- app_assoc; split; [reflexivity|exact R]].
      destruct c as [a|a| | |]; try contradiction; cbn [flat_map set_path_cmd app effects effect device]; cbn [up_cmd] in E; unfold up, dheight in *; rewrite E; reflexivity. }
  destruct (G []) as (y & E & R). rewrite E. exists y. split; [reflexivity|]. exact R.
Qed.

Global Opaque set_path.
Lemma straight_app p q : straight p -> straight q -> straight (p ++ q).
Proof. intros A B c I. apply in_app_or in I as [I|I]; [exact (A c I)|exact (B c I)]. Qed.
Lemma stripe_straight sc v : straight (stripe_path sc v).
Proof.
  unfold stripe_path. destruct (sc v) as [|a r]; [intros c []|]. intros c [<-|I]; [exact I|]. apply in_map_iff in I as (z & <- & _). exact I.
Qed.
Lemma hatch_straight d sc n : forall i clip o di ort st off wi p q, straight p -> hatch_loop d sc n i clip o di ort st off wi p = Ret q -> straight q.
Proof.
  induction n as [|n IH]; intros i clip o di ort st off wi p q S H; cbn [hatch_loop] in H; [discriminate|].
  set (dr := filter _ _) in H. assert (S' : straight (p ++ flat_map (stripe_path sc) dr)).
  { apply straight_app; [exact S|]. clear. induction dr as [|v r IH]; [intros c []|]. cbn [flat_map]. apply straight_app; [apply stripe_straight|exact IH]. }
  destruct dr as [|v r]; [now injection H as <-|]. exact (IH _ _ _ _ _ _ _ _ _ _ S' H).
Qed.
Lemma area_straight d sc n p fl q : straight p -> area_of d sc n p fl = Ret q -> straight q.
Proof.
  intros S H. unfold area_of in H. destruct (f_hatch fl); [|now injection H as <-]. unfold shape_hatch in H. destruct (xeq (f_stride fl) (Fin 0)); [injection H as <-; intros c []|].
  refine (hatch_straight _ _ _ _ _ _ _ _ _ _ _ [] _ _ H). intros c [].
Qed.
Lemma fill_effects d h p c x : straight p -> calm x -> exists y,
  effects (SetSource c :: set_path d h p ++ [FillC]) x = (y, [Filled c (upside d h p)]) /\ calm y.
Proof.
  intros S [C1 C2]. destruct x as [src q da wi m fa si er]. cbn in C1, C2. subst m er. cbn [effects effect]. rewrite effects_app.
  destruct (set_path_effects d h p S (mk_ctx c q da wi None fa si false)) as (y & E & P & [D1 D2] & Sy & _ & _); [now split|]. rewrite E.
  destruct y as [src' q' da' wi' m' fa' si' er']. cbn in *. subst. cbn. eexists. split; [reflexivity|now split].
Qed.
Lemma stroke_effects d h p l o c w x : straight p -> calm x -> good_dash l = true -> exists y,
  effects (SetDash l o :: SetSource c :: SetLineWidth w :: set_path d h p ++ [StrokeC]) x = (y, [Stroked c w (dash_of l o) None (upside d h p)]) /\ calm y.
Proof.
  intros S [C1 C2] G. destruct x as [src q da wi m fa si er]. cbn in C1, C2. subst m er. cbn [effects effect]. rewrite G. cbn [effects effect]. rewrite effects_app.
  destruct (set_path_effects d h p S (mk_ctx c q (dash_of l o) w None fa si false)) as (y & E & P & [D1 D2] & Sy & Dy & Wy); [now split|]. rewrite E.
  destruct y as [src' q' da' wi' m' fa' si' er']. cbn in *. subst. cbn. eexists. split; [reflexivity|now split].
Qed.
Lemma groups_effects d h dpi sets g s c : (forall f z, sets f z = true) -> exists l,
  raster_groups d h dpi sets g s c = (true, l) /\
  forall x, calm x -> exists y, effects l x = (y, text_shows d h (unit_to_pt d s dpi) c g) /\ calm y.
Proof.
  intro A. induction g as [|[f g] r (l & E & IH)]; cbn [raster_groups].
  - exists []. split; [reflexivity|]. intros x C. exists x. split; [reflexivity|exact C].
  - rewrite A, E. eexists. split; [reflexivity|]. intros x C. destruct x as [src q da wi m fa si er]. destruct C as [C1 C2]. cbn in C1, C2. subst m er. cbn [effects effect].
    destruct (IH (mk_ctx c q da wi None (Some f) (unit_to_pt d s dpi) false)) as (y & Ey & Cy); [now split|]. rewrite Ey. exists y. split; [|exact Cy].
    cbn [app text_shows map fst snd]. f_equal. f_equal. f_equal. rewrite map_map. reflexivity.
Qed.
Lemma rcall_ok d sc n h dpi sets o ok l x : simple sets o -> rcall d sc n h dpi sets o = Ret (ok, l) -> calm x ->
  exists y m, effects l x = (y, m) /\ calm y /\ shows d sc n h dpi o ok m.
Proof.
  intros S R C. destruct o as [c|p st fl|g s c t]; cbn [rcall simple shows] in *.
  - injection R as <- <-. destruct x as [src q da wi m fa si er]. destruct C as [C1 C2]. cbn in C1, C2. subst. cbn. do 2 eexists. split; [reflexivity|]. repeat split.
  - destruct S as [S G]. unfold raster_shape in R. destruct (Nat.ltb_spec (length p) 2) as [L|L].
    + injection R as <- <-. exists x, []. split; [reflexivity|]. split; [exact C|]. left. auto.
    + change (if f_hatch fl then _ else _) with (area_of d sc n p fl) in R. destruct (area_of d sc n p fl) as [a| | | |] eqn:A; try discriminate. cbn [bind] in R. injection R as <- <-.
      assert (Sa := area_straight _ _ _ _ _ _ S A).
      assert (Fi : exists y, effects match f_color fl with Some c => SetSource c :: set_path d h a ++ [FillC] | None => [] end x =
                     (y, match f_color fl with Some c => [Filled c (upside d h a)] | None => [] end) /\ calm y).
      { destruct (f_color fl) as [c|]; [now apply fill_effects|]. exists x. split; [reflexivity|exact C]. }
      destruct Fi as (y & Ey & Cy). rewrite effects_app, Ey.
      enough (St : exists z, effects (if xeq (s_width st) (Fin 0) then [] else (if s_dashed st then SetDash (s_pattern st) (s_offset st) else SetDash [] (Fin 0)) ::
                  SetSource (s_color st) :: SetLineWidth (s_width st) :: set_path d h p ++ [StrokeC]) y =
                 (z, if xeq (s_width st) (Fin 0) then [] else [Stroked (s_color st) (s_width st)
                       (match s_dashed st, s_pattern st with true, _ :: _ => (s_pattern st, s_offset st) | _, _ => ([], Fin 0) end) None (upside d h p)]) /\ calm z).
      { destruct St as (z & Ez & Cz). rewrite Ez. do 2 eexists. split; [reflexivity|]. split; [exact Cz|]. right. split; [exact L|]. split; [reflexivity|]. exists a. split; [reflexivity|reflexivity]. }
      destruct (xeq (s_width st) (Fin 0)); [exists y; split; [reflexivity|exact Cy]|].
      destruct (s_dashed st).
      * destruct (stroke_effects d h p (s_pattern st) (s_offset st) (s_color st) (s_width st) y S Cy (G eq_refl)) as (z & Ez & Cz). exists z. split; [|exact Cz]. rewrite Ez. unfold dash_of. now destruct (s_pattern st).
      * destruct (stroke_effects d h p [] (Fin 0) (s_color st) (s_width st) y S Cy eq_refl) as (z & Ez & Cz). exists z. split; [|exact Cz]. rewrite Ez. reflexivity.
  - destruct S as [-> A]. destruct (groups_effects d h dpi sets g s c A) as (k & E & K). unfold raster_text in R. rewrite E in R. injection R as <- <-. cbn [effects].
    destruct x as [src q da wi m fa si er]. destruct C as [C1 C2]. cbn in C1, C2. subst. cbn [effect].
    destruct (K (mk_ctx src q da wi None fa si false)) as (y & Ey & Cy); [now split|]. rewrite Ey. exists y. eexists. split; [reflexivity|]. split; [exact Cy|]. now split.
Qed.

(** C103. Whatever is drawn on a picture before: every shape shows its own area and outline, in its
    own colours, width and dashes, every text its glyphs, in the order of the calls, with heights
    counted from below. *)
Theorem C103_pictures : forall (d : R -> R) sort_cw fuel height dpi sets (l : list rop) (oks : list bool) (calls : list cairo),
  Forall (simple sets) l -> rcalls d sort_cw fuel height dpi sets l = Ret (oks, calls) ->
  all_show d sort_cw fuel height dpi l oks (seen calls).
Proof.
  intros d sc n h dpi sets l oks calls F R. unfold seen.
  assert (G : forall x, calm x -> all_show d sc n h dpi l oks (snd (effects calls x))).
  { revert oks calls R. induction F as [|o l S F IH]; intros oks calls R x C; cbn [rcalls] in R.
    - injection R as <- <-. constructor.
    - destruct (rcall d sc n h dpi sets o) as [[ok a]| | | |] eqn:E; try discriminate. cbn [bind] in R.
      destruct (rcalls d sc n h dpi sets l) as [[bs b]| | | |]; try discriminate. cbn [bind] in R. injection R as <- <-.
      destruct (rcall_ok _ _ _ _ _ _ _ _ _ x S E C) as (y & m & Ey & Cy & Sh). rewrite effects_app, Ey. specialize (IH bs b eq_refl y Cy). destruct (effects b y) as [z k]. cbn [snd] in *.
      now constructor. }
  apply G. now split.
Qed.
Print Assumptions C103_pictures.

(** C103. The picture of a page: refused if and only if a path has less than two commands;
    otherwise the background and then every shape, in order. *)
Theorem C103_page : forall (d : R -> R) sort_cw fuel w h dpi (W H : nat) bg (l : list draw_command),
  to_unsigned 32 w = Ret W -> to_unsigned 32 h = Ret H ->
  Forall (fun c => simple_shape (dc_path c) (dc_stroke c)) l ->
  (forall c, In c l -> exists a, area_of d sort_cw fuel (dc_path c) (dc_fill c) = Ret a) ->
  ((exists c, In c l /\ (length (dc_path c) < 2)%nat) <-> page_export_png d sort_cw fuel w h bg l = Err) /\
  ((forall c, In c l -> (2 <= length (dc_path c))%nat) ->
    exists calls oks, page_export_png d sort_cw fuel w h bg l = Ret (W, H, calls) /\
      all_show d sort_cw fuel H dpi (RClear bg :: map (fun c => RShape (dc_path c) (dc_stroke c) (dc_fill c)) l) oks (seen calls)).
Proof.
  intros d sc n w h dpi W H bg l Ew Eh F A.
  assert (B : (exists c, In c l /\ (length (dc_path c) < 2)%nat) \/ (forall c, In c l -> (2 <= length (dc_path c))%nat)).
  { clear. induction l as [|c l [(c' & I & L)|IH]]; [right; intros c []|left; exists c'; split; [now right|exact L]|].
    destruct (le_lt_dec 2 (length (dc_path c))) as [L|L]; [right; intros x [<-|I]; auto|left; exists c; split; [now left|exact L]]. }
  assert (G1 : (exists c, In c l /\ (length (dc_path c) < 2)%nat) -> raster_all d sc n H l = Err).
  { clear B F. intros (c & I & L). induction l as [|x l IH]; [destruct I|]. cbn [raster_all]. unfold raster_shape at 1.
    destruct (Nat.ltb_spec (length (dc_path x)) 2) as [Lx|Lx]; [reflexivity|]. destruct I as [->|I]; [lia|].
    destruct (A x (or_introl eq_refl)) as (a & Ea). unfold area_of in Ea. rewrite Ea. cbn [bind]. rewrite IH; [reflexivity| |exact I]. intros y J. apply A. now right. }
  assert (G2 : (forall c, In c l -> (2 <= length (dc_path c))%nat) -> exists k oks, raster_all d sc n H l = Ret k /\
      rcalls d sc n H dpi (fun _ _ => true) (map (fun c => RShape (dc_path c) (dc_stroke c) (dc_fill c)) l) = Ret (oks, k)).
  { clear B F G1. intro L. induction l as [|x l IH]; [exists [], []; split; reflexivity|]. cbn [raster_all map rcalls rcall].
    destruct IH as (k & oks & E1 & E2); [intros y J; apply A; now right|intros y J; apply L; now right|].
    assert (Lx := L x (or_introl eq_refl)). destruct (A x (or_introl eq_refl)) as (a & Ea). unfold area_of in Ea.
    unfold raster_shape. destruct (Nat.ltb_spec (length (dc_path x)) 2) as [Lx'|_]; [lia|]. rewrite Ea. cbn [bind]. rewrite E1, E2. cbn [bind]. do 2 eexists. split; reflexivity. }
  assert (G3 : (forall c, In c l -> (2 <= length (dc_path c))%nat) ->
    exists calls oks, page_export_png d sc n w h bg l = Ret (W, H, calls) /\
      all_show d sc n H dpi (RClear bg :: map (fun c => RShape (dc_path c) (dc_stroke c) (dc_fill c)) l) oks (seen calls)).
  { intro L. destruct (G2 L) as (k & oks & E1 & E2). exists (raster_clear bg ++ k), (true :: oks). unfold page_export_png. rewrite Ew, Eh. cbn [bind]. rewrite E1. cbn [bind]. split; [reflexivity|].
    apply (C103_pictures d sc n H dpi (fun _ _ => true)).
    - constructor; [exact I|]. clear - F. induction F; cbn; constructor; auto.
    - cbn [rcalls rcall]. cbn [bind]. rewrite E2. reflexivity. }
  split; [|exact G3]. split; intro X.
  - unfold page_export_png. rewrite Ew, Eh. cbn [bind]. now rewrite (G1 X).
  - destruct B as [B|B]; [exact B|]. destruct (G3 B) as (c & o & E & _). congruence.
Qed.
Print Assumptions C103_page.

(** C103. But what the drawing commands put on a page has its styles elsewhere (draw_shape): the
    picture shows the background only. *)
Theorem C103_blank_refuted : forall (d : R -> R) sort_cw fuel w h (W H : nat) bg (l : list draw_command),
  to_unsigned 32 w = Ret W -> to_unsigned 32 h = Ret H -> (forall c, In c l -> (2 <= length (dc_path c))%nat /\ f_hatch (dc_fill c) = false) ->
  exists calls, page_export_png d sort_cw fuel w h bg (map draw_shape l) = Ret (W, H, calls) /\ seen calls = [Painted bg].
Proof.
  intros d sc n w h W H bg l Ew Eh L. exists (raster_clear bg ++ []). unfold page_export_png. rewrite Ew, Eh. cbn [bind].
  assert (E : raster_all d sc n H (map draw_shape l) = Ret []).
  { clear Ew Eh. induction l as [|c l IH]; [reflexivity|]. cbn [map raster_all]. destruct (L c (or_introl eq_refl)) as [Lc Hc].
    assert (P : dc_path (draw_shape c) = dc_path c /\ f_hatch (dc_fill (draw_shape c)) = false /\ f_color (dc_fill (draw_shape c)) = None /\ xeq (s_width (dc_stroke (draw_shape c))) (Fin 0) = true).
    { unfold draw_shape. destruct (f_color (dc_fill c)) eqn:Fc; destruct (xeq (s_width (dc_stroke c)) (Fin 0)) eqn:Sw; cbn [dc_path dc_fill dc_stroke stroke0 s_width fill0 f_hatch f_color];
        repeat split; auto; cbn; destruct (Req_EM_T 0 0); auto; lra. }
    destruct P as (P1 & P2 & P3 & P4). unfold raster_shape. rewrite P1, P2, P3, P4. destruct (Nat.ltb_spec (length (dc_path c)) 2); [lia|]. cbn [bind app].
    rewrite IH; [reflexivity|]. intros y J. apply L. now right. }
  rewrite E. split; [reflexivity|]. reflexivity.
Qed.
Print Assumptions C103_blank_refuted.

Lemma mmul_M a b c e f g h i j a' b' c' e' f' g' h' i' j' : mmul exact (M a b c e f g h i j) (M a' b' c' e' f' g' h' i' j') =
  M (a * a' + b * e' + c * h') (a * b' + b * f' + c * i') (a * c' + b * g' + c * j')
    (e * a' + f * e' + g * h') (e * b' + f * f' + g * i') (e * c' + f * g' + g * j')
    (h * a' + i * e' + j * h') (h * b' + i * f' + j * i') (h * c' + i * g' + j * j').
Proof. reflexivity. Qed.
Lemma flipped_M k a b c e f g : flipped exact k (M a b c e f g 0 0 1) = M a (- b) (b * INR k + c) (- e) f (INR k - (f * INR k + g)) 0 0 1.
Proof.
  unfold flipped, dheight. change (scale2 (mk_vec2 (Fin 1) (Fin (-1)))) with (M 1 0 0 0 (-1) 0 0 0 1).
  change (translate2 (mk_vec2 (Fin 0) (xneg (Fin (INR k))))) with (M 1 0 0 0 1 (- INR k) 0 0 1). change (translate2 (mk_vec2 (Fin 0) (Fin (INR k)))) with (M 1 0 0 0 1 (INR k) 0 0 1).
  rewrite !mmul_M. unfold M. f_equal; f_equal; ring.
Qed.
Lemma device_M k a b c e f g x y : device (Some (flipped exact k (M a b c e f g 0 0 1))) (P (x, INR k - y)) = P (a * x + b * y + c, INR k - (e * x + f * y + g)).
Proof. unfold device. rewrite flipped_M. rewrite C43_point. cbn [fst snd]. unfold P. cbn [fst snd]. f_equal; f_equal; ring. Qed.

(** C103. A text with a transformation (a b c; e f g): the glyph at (x, y) is shown at
    (a x + b y + c, e x + f y + g), heights counted from below; without rounding. *)
Theorem C103_turned_text : forall height dpi sets (g : list (nat * list (Z * pt))) (size : xr) (c : color) (ta tb tc te tf tg : R),
  (forall f z, sets f z = true) ->
  exists pen, seen (snd (raster_text exact height dpi sets (map (fun fg => (fst fg, map (fun x => (fst x, P (snd x))) (snd fg))) g) size c (Some (M ta tb tc te tf tg 0 0 1)))) =
    map (fun fg => Shown c (Some (fst fg)) (unit_to_pt exact size dpi) pen
           (map (fun x => let '(x0, y0) := snd x in (fst x, P (ta * x0 + tb * y0 + tc, INR height - (te * x0 + tf * y0 + tg)))) (snd fg))) g.
Proof.
  intros h dpi sets g s c ta tb tc te tf tg A. exists (Some (flipped exact h (M ta tb tc te tf tg 0 0 1))). unfold raster_text, seen.
  set (fl := flipped exact h _). unfold fresh.
  assert (G : forall src q da wi fa si, exists y, effects (snd (raster_groups exact h dpi sets (map (fun fg => (fst fg, map (fun x => (fst x, P (snd x))) (snd fg))) g) s c)) (mk_ctx src q da wi (Some fl) fa si false) =
     (y, map (fun fg => Shown c (Some (fst fg)) (unit_to_pt exact s dpi) (Some fl)
           (map (fun x => let '(x0, y0) := snd x in (fst x, P (ta * x0 + tb * y0 + tc, INR h - (te * x0 + tf * y0 + tg)))) (snd fg))) g)).
  { induction g as [|[f l] g IH]; intros src q da wi fa si; cbn [map raster_groups fst snd].
    - eexists. reflexivity.
    - rewrite A. destruct (raster_groups exact h dpi sets _ s c) as [ok k]. cbn [snd] in *. cbn [effects effect].
      destruct (IH c q da wi (Some f) (unit_to_pt exact s dpi)) as (y & E). rewrite E. exists y. cbn [app]. f_equal. f_equal. f_equal. rewrite !map_map. apply map_ext. intros [i [x0 y0]]. cbn [fst snd].
      f_equal. exact (device_M h ta tb tc te tf tg x0 y0). }
  destruct (raster_groups exact h dpi sets _ s c) as [ok k]. cbn [snd] in *. cbn [effects effect]. destruct (G black [] ([], Fin 0) (Fin 2) None (Fin 10)) as (y & E). rewrite E. reflexivity.
Qed.
Print Assumptions C103_turned_text.

(** C103. A font whose size cannot be set fails the call: the glyphs before it have been shown, those
    behind it are not. *)
Theorem C103_failed_font : forall (d : R -> R) height dpi sets before f g after size col t,
  (forall f' g', In (f', g') before -> sets f' (xmul d (xmul d (unit_to_pt d size dpi) (xdiv d (Fin 72) dpi)) (Fin 64)) = true) ->
  sets f (xmul d (xmul d (unit_to_pt d size dpi) (xdiv d (Fin 72) dpi)) (Fin 64)) = false ->
  fst (raster_text d height dpi sets before size col t) = true /\
  raster_text d height dpi sets (before ++ (f, g) :: after) size col t = (false, snd (raster_text d height dpi sets before size col t)).
Proof.
  intros d h dpi sets before f g after size col t B F.
  assert (G : fst (raster_groups d h dpi sets before size col) = true /\
    raster_groups d h dpi sets (before ++ (f, g) :: after) size col = (false, snd (raster_groups d h dpi sets before size col))).
  { induction before as [|[f' g'] before IH]; cbn [app raster_groups].
    - now rewrite F.
    - rewrite (B f' g') by now left. destruct IH as [IH1 IH2]; [intros; apply (B f'0 g'0); now right|]. rewrite IH2.
      destruct (raster_groups d h dpi sets before size col) as [ok l]. split; [exact IH1|reflexivity]. }
  unfold raster_text. destruct G as [G1 ->]. destruct (raster_groups d h dpi sets before size col) as [ok l]. split; [exact G1|reflexivity].
Qed.
Print Assumptions C103_failed_font.

(** C103. Shapes after a turned text are turned, too. *)
Theorem C103_turned_shape_refuted : forall height (ta tb tc te tf tg x0 y0 x1 y1 : R) (col : color),
  exists calls, rcalls exact (fun l => l) 0 height (Fin 96) (fun _ _ => true)
    [RText [] (Fin 11) black (Some (M ta tb tc te tf tg 0 0 1)); RShape [MoveTo (P (x0, y0)); LineTo (P (x1, y1))] stroke0 (mk_fill (Some col) false (Fin 0) (Fin 0) (Fin 0) (Fin 0))]
    = Ret ([true; true], calls) /\
  seen calls = [Filled col [MoveTo (P (ta * x0 + tb * y0 + tc, INR height - (te * x0 + tf * y0 + tg))); LineTo (P (ta * x1 + tb * y1 + tc, INR height - (te * x1 + tf * y1 + tg)))]].
Proof.
  intros. eexists. split; [reflexivity|]. Transparent set_path. unfold seen, raster_text, set_path, fresh. cbn [app effects effect fst snd raster_groups f_color stroke0 s_width xeq].
  destruct (Req_EM_T 0 0) as [_|N]; [|lra]. cbn [app effects effect set_path_cmd flat_map device snd].
  f_equal. f_equal. f_equal; [f_equal; exact (device_M height ta tb tc te tf tg x0 y0)|]. f_equal. f_equal. exact (device_M height ta tb tc te tf tg x1 y1).
Qed.
Print Assumptions C103_turned_shape_refuted.
(** C103. Curves are left out without an error: a circle shows nothing of its outline. *)
Theorem C103_curves_refuted : forall (d : R -> R) height (p : path) (st : stroke_style) (fl : fill_style) a b c e,
  f_hatch fl = false -> p = [MoveTo a; CubicTo b c e] -> xeq (s_width st) (Fin 0) = false -> s_dashed st = false -> f_color fl = None ->
  exists calls, raster_shape d (fun l => l) 0 height p st fl = Ret (true, calls) /\
  seen calls = [Stroked (s_color st) (s_width st) ([], Fin 0) None [MoveTo (up d height a)]].
Proof.
  intros d h p st fl a b c e Hh -> W D C. unfold raster_shape. rewrite Hh, W, D, C. cbn [length Nat.ltb Nat.leb bind]. eexists. split; [reflexivity|].
  reflexivity.
Qed.
Print Assumptions C103_curves_refuted.
(** C103. A dash pattern without a positive length puts cairo into its error state: nothing is shown
    from there on, although every call answers OK. *)
Theorem C103_zero_dash_refuted : forall (d : R -> R) sort_cw fuel height dpi sets (p : path) (col : color) (l : list rop) (oks : list bool) (calls : list cairo),
  (2 <= length p)%nat ->
  rcalls d sort_cw fuel height dpi sets (RShape p (mk_stroke_style (Fin 1) col true (Fin 0) [Fin 0]) fill0 :: l) = Ret (oks, calls) ->
  hd false oks = true /\ seen calls = [].
Proof.
  intros d sc n h dpi sets p col l oks calls L R. cbn [rcalls rcall] in R. unfold raster_shape in R. destruct (Nat.ltb_spec (length p) 2) as [X|_]; [lia|].
  cbn [f_hatch fill0 f_color s_width s_dashed s_pattern s_offset s_color bind] in R. destruct (xeq (Fin 1) (Fin 0)) eqn:E; [apply xeq_fin in E; lra|].
  cbn [app bind] in R. destruct (rcalls d sc n h dpi sets l) as [[bs k]| | | |]; try discriminate. cbn [bind] in R. injection R as <- <-. split; [reflexivity|].
  unfold seen, fresh. cbn [app effects effect]. assert (G : good_dash [Fin 0] = false).
  { cbn. destruct (Rlt_dec 0 0); [lra|]. now rewrite andb_false_r. }
  rewrite G. cbn [effects effect]. assert (Z : forall m x, x_error x = true -> effects m x = (x, [])).
  { clear. induction m as [|q m IH]; intros x Ex; cbn [effects]; [reflexivity|]. assert (effect q x = (x, [])) as -> by (destruct x; cbn in Ex; subst; reflexivity). now rewrite IH. }
  rewrite Z by reflexivity. reflexivity.
Qed.
Print Assumptions C103_zero_dash_refuted.
(** C103. A text of [v] pixels is shown with a size of 72 v / dpi pixels. *)
Theorem C103_text_size_refuted : forall height sets (v dpi : R) (col : color) (f : nat),
  (forall f z, sets f z = true) -> dpi <> 0 -> dpi <> 72 -> v <> 0 ->
  exists s, seen (snd (raster_text exact height (Fin dpi) sets [(f, [])] (Fin v) col None)) = [Shown col (Some f) (Fin s) None []] /\ s = v * 72 / dpi /\ s <> v.
Proof.
  intros h sets v dpi col f A N0 N72 Nv. exists (v / dpi * 72). unfold raster_text. cbn [raster_groups]. rewrite A. split; [|split].
  - unfold seen, fresh. cbn [snd effects effect map app fst]. unfold unit_to_pt. cbn. ex. destruct (Req_EM_T dpi 0); [contradiction|]. reflexivity.
  - field. exact N0.
  - intro E. apply N72. apply (Rmult_eq_reg_l v); [|exact Nv]. assert (F : v / dpi * 72 * dpi = v * dpi) by (rewrite E; reflexivity). replace (v / dpi * 72 * dpi) with (v * 72) in F by (field; exact N0). lra.
Qed.
Print Assumptions C103_text_size_refuted.

(** A dashed line and then a solid one, and a page. *)
Example C103_case : exists oks calls,
  rcalls exact (fun l => l) 0 100 (Fin 96) (fun _ _ => true)
    [RShape [MoveTo (P (1, 2)); LineTo (P (3, 4))] (mk_stroke_style (Fin 1) black true (Fin 0) [Fin 5]) fill0;
     RShape [MoveTo (P (5, 6)); LineTo (P (7, 8))] (mk_stroke_style (Fin 2) black false (Fin 0) []) fill0] = Ret (oks, calls) /\
  all_show exact (fun l => l) 0 100 (Fin 96)
    [RShape [MoveTo (P (1, 2)); LineTo (P (3, 4))] (mk_stroke_style (Fin 1) black true (Fin 0) [Fin 5]) fill0;
     RShape [MoveTo (P (5, 6)); LineTo (P (7, 8))] (mk_stroke_style (Fin 2) black false (Fin 0) []) fill0] oks (seen calls).
Proof.
  do 2 eexists. split; [reflexivity|]. apply (C103_pictures _ _ _ _ _ (fun _ _ => true)); [|reflexivity].
  constructor; [|constructor; [|constructor]]; (split; [intros c [<-|[<-|[]]]; exact I|]).
  - intros _. cbn. destruct (Rle_dec 0 5); [|lra]. destruct (Rlt_dec 0 5); [reflexivity|lra].
  - discriminate.
Qed.
