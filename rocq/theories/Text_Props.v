(** Theorems about text layout: C47, C67, C68, C69. *)
From Verif Require Import Base Num Geo_Model Geo_Spec Geo_Proofs Geo_Props Text_Model Text_Spec Text_Proofs.
From Coq Require Import Permutation Sorted Lra.
Local Open Scope nat_scope.

(* ------------------------------------------------------------------ C47 *)
(** C47. The display order of runs with given levels is the order the Unicode algorithm
    prescribes (Text_Spec.v), from left to right for left-to-right text and from right to left
    for right-to-left text. This determines the order completely (C47_unique). *)
Theorem C47_order : forall (base : direction) (levels : list nat), levels <> [] ->
  exists order past, visual_order base levels = Ret (order, past) /\
    bidi_order levels (match base with LTR => order | RTL => rev order end).
Proof.
  intros base levels NE. unfold visual_order. pose proof (down_stage levels (list_max levels) (seq 0 (length levels)) false (start_stage levels)) as ST.
  destruct levels as [|a l]; [congruence|]. destruct (levels_down _ _ _ _) as [order past]. cbn [fst] in ST.
  do 2 eexists. split; [reflexivity|]. destruct base; [|rewrite rev_involutive]; now apply stage_order.
Qed.
Print Assumptions C47_order.
Lemma left_of_irr order i j : NoDup order -> left_of order i j -> left_of order j i -> False.
Proof.
  intros ND (p & q & L & A & B) (p' & q' & L' & A' & B').
  assert (U : forall x y k, nth_error order x = Some k -> nth_error order y = Some k -> x = y).
  { intros x y k X Y. apply (proj1 (NoDup_nth_error order) ND); [apply nth_error_Some; congruence|congruence]. }
  pose proof (U p q' i A B'). pose proof (U q p' j B A'). lia.
Qed.
Lemma left_of_total order i j : In i order -> In j order -> i <> j -> left_of order i j \/ left_of order j i.
Proof.
  intros I J N. apply In_nth_error in I as [p P]. apply In_nth_error in J as [q Q].
  destruct (lt_eq_lt_dec p q) as [[L|E]|L]; [left; now exists p, q|subst; congruence|right; now exists q, p].
Qed.
Lemma same_before a : forall b, NoDup a -> NoDup b -> (forall i, In i a <-> In i b) -> (forall i j, left_of a i j -> left_of b i j) -> a = b.
Proof.
  induction a as [|x a IH]; intros [|y b] NA NB IN LO; [reflexivity|destruct (proj2 (IN y) (or_introl eq_refl))|destruct (proj1 (IN x) (or_introl eq_refl))|].
  inversion NA as [|? ? NA1 NA2]; inversion NB as [|? ? NB1 NB2]; subst.
  assert (x = y).
  { destruct (Nat.eq_dec x y) as [E|E]; [exact E|exfalso]. assert (IA : In y a) by (destruct (proj2 (IN y) (or_introl eq_refl)); [congruence|assumption]).
    assert (L1 : left_of (x :: a) x y). { apply In_nth_error in IA as [q Q]. exists 0, (S q). repeat split; [lia|exact Q]. }
    assert (L2 : left_of (y :: b) y x).
    { destruct (proj1 (IN x) (or_introl eq_refl)) as [Z|Z]; [congruence|]. apply In_nth_error in Z as [q Q]. exists 0, (S q). repeat split; [lia|exact Q]. }
    exact (left_of_irr _ _ _ NB L2 (LO _ _ L1)). }
  subst y. f_equal. apply IH; auto.
  - intro i. split; intro I; [destruct (proj1 (IN i) (or_intror I))|destruct (proj2 (IN i) (or_intror I))]; auto; subst; contradiction.
  - intros i j (p & q & L & P & Q). destruct (LO i j) as (p' & q' & L' & P' & Q').
    + exists (S p), (S q). repeat split; [lia|exact P|exact Q].
    + destruct p' as [|p']; [cbn in P'; injection P' as ->; destruct (NA1 (nth_error_In _ _ P))|].
      destruct q' as [|q']; [lia|]. exists p', q'. repeat split; [lia|exact P'|exact Q'].
Qed.
Theorem C47_unique : forall (levels a b : list nat), bidi_order levels a -> bidi_order levels b -> a = b.
Proof.
  intros levels a b (NA & IA & OA) (NB & IB & OB). apply same_before; auto.
  - intro i. rewrite IA, IB. reflexivity.
  - intros i j L. assert (I : In i a /\ In j a) by (destruct L as (p & q & _ & P & Q); split; eapply nth_error_In; eassumption).
    destruct I as [I J]. apply IA in I. apply IA in J.
    destruct (lt_eq_lt_dec i j) as [[C|C]|C].
    + destruct (lowest_ex levels (j - i) i ltac:(lia)) as [m M]. replace (i + (j - i)) with j in M by lia.
      specialize (OA i j m C J M). specialize (OB i j m C J M). destruct (Nat.even m); [exact OB|]. destruct (left_of_irr _ _ _ NA L OA).
    + subst j. destruct (left_of_irr _ _ _ NA L L).
    + destruct (lowest_ex levels (i - j) j ltac:(lia)) as [m M]. replace (j + (i - j)) with i in M by lia.
      specialize (OA j i m C I M). specialize (OB j i m C I M). destruct (Nat.even m); [|exact OB]. destruct (left_of_irr _ _ _ NA L OA).
Qed.
Print Assumptions C47_unique.

(** C47. Every run is shown exactly once. *)
Theorem C47_permutation : forall (base : direction) (levels order : list nat) (past : bool),
  visual_order base levels = Ret (order, past) -> Permutation (seq 0 (length levels)) order.
Proof.
  intros base levels order past E. assert (NE : levels <> []) by (intros ->; discriminate).
  destruct (C47_order base levels NE) as (o & p & E2 & (ND & IN & _)). rewrite E2 in E. injection E as -> ->.
  assert (P : Permutation (seq 0 (length levels)) (match base with LTR => order | RTL => rev order end)).
  { apply NoDup_Permutation; [apply seq_NoDup|exact ND|]. intro x. rewrite IN, in_seq. lia. }
  destruct base; [exact P|]. transitivity (rev order); [exact P|]. apply Permutation_sym, Permutation_rev.
Qed.
Print Assumptions C47_permutation.

(** C47. Runs that all have the same even level keep their order from left to right; with the
    same odd level they are reversed. *)
Theorem C47_uniform : forall (n level : nat), 0 < n ->
  exists past, visual_order LTR (repeat level n) = Ret (if Nat.even level then seq 0 n else rev (seq 0 n), past).
Proof.
  intros n level N. assert (NE : repeat level n <> []) by (destruct n; [lia|discriminate]).
  destruct (C47_order LTR _ NE) as (o & p & E & B). exists p. rewrite E. do 2 f_equal. eapply C47_unique; [exact B|].
  assert (LV : forall i j m, i < j -> j < length (repeat level n) -> lowest (repeat level n) i j m -> m = level).
  { intros i j m I J [(k & _ & K) _]. apply nth_error_In, repeat_spec in K. exact K. }
  rewrite repeat_length in *. 
  assert (LS : forall i j, i < j -> j < n -> left_of (seq 0 n) i j).
  { intros i j I J. exists i, j. split; [exact I|].
    split; [rewrite (nth_error_nth' _ 0), seq_nth|rewrite (nth_error_nth' _ 0), seq_nth]; rewrite ?seq_length; lia || reflexivity. }
  unfold bidi_order. rewrite repeat_length. destruct (Nat.even level) eqn:EV.
  - split; [apply seq_NoDup|]. split; [intro i; rewrite in_seq; lia|]. intros i j m I J M. rewrite (LV i j m I J M), EV. auto.
  - split; [apply NoDup_rev, seq_NoDup|]. split; [intro i; rewrite <- in_rev, in_seq; lia|]. intros i j m I J M. rewrite (LV i j m I J M), EV.
    destruct (LS i j I J) as (p' & q' & L & P & Q).
    assert (PN : p' < n) by (rewrite <- (seq_length n 0); apply nth_error_Some; congruence).
    assert (QN : q' < n) by (rewrite <- (seq_length n 0); apply nth_error_Some; congruence).
    exists (n - 1 - q'), (n - 1 - p'). split; [lia|].
    rewrite (nth_error_nth' (rev (seq 0 n)) 0), (nth_error_nth' (rev (seq 0 n)) 0) by (rewrite rev_length, seq_length; lia).
    rewrite !rev_nth by (rewrite seq_length; lia). rewrite seq_length.
    replace (n - S (n - 1 - q')) with q' by lia. replace (n - S (n - 1 - p')) with p' by lia.
    apply (nth_error_nth _ _ 0) in P. apply (nth_error_nth _ _ 0) in Q. rewrite P, Q. auto.
Qed.
Print Assumptions C47_uniform.
Example C47_example : visual_order LTR [0; 1; 2; 2; 1; 0] = Ret ([0; 4; 2; 3; 1; 5], false) /\
  visual_order RTL [1; 2; 2; 1] = Ret ([0; 2; 1; 3], true).
Proof. split; reflexivity. Qed.

(** C47, what is missing above: the code reads the level behind the last one exactly if the last
    run is not at level 0; and a line without runs is undefined. *)
Theorem C47_reads_past_end_refuted : forall (base : direction) (levels order : list nat) (past : bool),
  visual_order base levels = Ret (order, past) -> (past = true <-> 1 <= last levels 0).
Proof.
  intros base levels order past E. destruct (list_eq_dec Nat.eq_dec levels []) as [->|NE]; [discriminate|]. unfold visual_order in E.
  pose proof (down_past levels NE (list_max levels) (seq 0 (length levels)) false) as DP.
  destruct levels as [|a l]; [congruence|]. destruct (levels_down _ _ _ _) as [o p]. injection E as _ ->. cbn [snd] in DP.
  assert (LL : lev (a :: l) (length (a :: l) - 1) = last (a :: l) 0).
  { unfold lev. clear. generalize (a :: l) as q. intro q. induction q as [|x q IH]; [reflexivity|]. destruct q as [|y q]; [reflexivity|].
    change (last (x :: y :: q) 0) with (last (y :: q) 0). rewrite <- IH. cbn [length]. replace (S (S (length q)) - 1) with (S (S (length q) - 1)) by lia. reflexivity. }
  rewrite LL in DP. rewrite DP. split; [intros [X|X]; [discriminate|tauto]|]. intro X. right. split; [|exact X].
  assert (F : Forall (fun x => x <= list_max (a :: l)) (a :: l)) by (now apply list_max_le). rewrite Forall_forall in F.
  assert (IL : In (last (a :: l) 0) (a :: l)).
  { clear. generalize a. induction l as [|y l IH]; intro x; [now left|]. right. apply IH. }
  specialize (F _ IL). lia.
Qed.
Print Assumptions C47_reads_past_end_refuted.
Theorem C47_empty_refuted : forall base : direction, visual_order base [] = UB.
Proof. reflexivity. Qed.
Print Assumptions C47_empty_refuted.

(* ------------------------------------------------------------------ C67 *)
(** C67. Splitting text into runs, for every level assignment of fribidi: nothing is lost or
    moved, every character is in a run of its own level and with its own span's attributes,
    runs are not empty and their direction is that of their level. *)
Theorem C67_runs_partial : forall (fribidi : direction -> list Z -> option (list nat)) (spans : list span) (base : direction) (levels : list nat),
  fribidi base (flat_map sp_text spans) = Some levels -> length levels = length (flat_map sp_text spans) -> levels <> [] ->
  exists rs, analyze fribidi true spans base = Ret rs /\
    flat_map (fun r => sp_text (fst r)) rs = flat_map sp_text spans /\
    flat_map (fun r => repeat (snd r) (length (sp_text (fst r)))) rs = levels /\
    flat_map (fun r => repeat (sp_rest (fst r)) (length (sp_text (fst r)))) rs = flat_map (fun s => repeat (sp_rest s) (length (sp_text s))) spans /\
    Forall (fun r => sp_text (fst r) <> [] /\ sp_dir (fst r) = if Nat.odd (snd r) then RTL else LTR) rs.
Proof.
  intros fribidi spans base levels E L NE. unfold analyze, analyze_freetype. rewrite E.
  destruct (span_map_spec spans 0) as (S1 & S2 & S3).
  assert (N : 0 < length levels) by (destruct levels; [congruence|cbn; lia]).
  set (dflt := mk_span [] LTR 0).
  destruct (runs_from_spec spans (flat_map sp_text spans) levels (span_map 0 spans) dflt) with (bounds := run_bounds levels (span_map 0 spans)) (b := 0)
    as (rs & Q & T1 & T2 & T3 & T4); auto.
  - lia.
  - eapply Forall_impl; [|exact S2]. cbn. intros; lia.
  - intros i I. apply filter_In in I as [I1 I2]. apply in_seq in I1. apply andb_prop in I2 as [I2 _]. apply Nat.ltb_lt in I2. lia.
  - intros i I D. apply filter_In. split; [apply in_seq; lia|]. rewrite D. destruct (Nat.ltb_spec 0 i); [reflexivity|lia].
  - apply bounds_sorted.
  - exists rs. split; [exact Q|]. cbn [skipn] in *. split; [exact T1|]. split; [exact T2|]. split; [|exact T4].
    unfold run_rest in T3. rewrite (S3 spans dflt) in T3.
    + rewrite <- T3. clear. induction rs as [|r rs IH]; [reflexivity|]. cbn [flat_map map]. now rewrite IH.
    + intros i s X. cbn. now apply nth_error_nth.
Qed.
Print Assumptions C67_runs_partial.
Example C67_runs_example : let f := fun (_ : direction) (_ : list Z) => Some [0; 0; 1; 1] in
  analyze f true [mk_span [104%Z; 105%Z; 1488%Z] LTR 7; mk_span [1489%Z] LTR 8] LTR =
  Ret [(mk_span [104%Z; 105%Z] LTR 7, 0); (mk_span [1488%Z] RTL 7, 1); (mk_span [1489%Z] RTL 8, 1)].
Proof. reflexivity. Qed.

(** C67. Without bidirectional support every span is a run of its own, of the lowest level, in the order given. *)
Theorem C67_plain : forall (fribidi : direction -> list Z -> option (list nat)) (spans : list span) (base : direction),
  exists runs, analyze fribidi false spans base = Ret runs /\ map fst runs = spans /\ Forall (fun r => snd r = 0) runs.
Proof.
  intros fribidi spans base. eexists. split; [reflexivity|]. rewrite map_map. cbn [fst]. rewrite map_id. split; [reflexivity|].
  apply Forall_forall. intros r I. apply in_map_iff in I as (s & <- & _). reflexivity.
Qed.
Print Assumptions C67_plain.

(** C67. Reordering passes on all runs; without bidirectional support the spans are kept. *)
Theorem C67_reorder : forall (fribidi : direction -> list Z -> option (list nat)) (bidi : bool) (spans : list span) (base : direction)
    (runs : list (span * nat)), analyze fribidi bidi spans base = Ret runs -> runs <> [] ->
  exists line, reorder fribidi bidi spans base = Ret line /\ Permutation (map fst runs) line.
Proof.
  intros fribidi bidi spans base runs E NE. unfold reorder. rewrite E. cbn [bind].
  destruct (C47_order base (map snd runs)) as (o & p & V & _); [destruct runs; [congruence|discriminate]|].
  pose proof (C47_permutation _ _ _ _ V) as P. rewrite V. cbn [bind]. eexists. split; [reflexivity|]. rewrite map_length in P.
  unfold pick. transitivity (flat_map (fun i => match nth_error (map fst runs) i with Some a => [a] | None => [] end) (seq 0 (length runs))).
  - assert (G : forall l pre : list span, l = flat_map (fun i => match nth_error (pre ++ l) i with Some a => [a] | None => [] end) (seq (length pre) (length l))).
    { clear. induction l as [|a l IH]; intro pre; [reflexivity|]. cbn [length seq flat_map]. rewrite nth_error_app2, Nat.sub_diag by lia. cbn [nth_error app].
      f_equal. specialize (IH (pre ++ [a])). rewrite app_length, <- app_assoc in IH. cbn [length app] in IH. rewrite Nat.add_1_r in IH. exact IH. }
    specialize (G (map fst runs) []). rewrite map_length in G. cbn [app length] in G. rewrite <- G. reflexivity.
  - clear - P. induction P; cbn [flat_map]; auto.
    + now apply Permutation_app_head.
    + rewrite !app_assoc. apply Permutation_app_tail, Permutation_app_comm.
    + eapply Permutation_trans; eassumption.
Qed.
Print Assumptions C67_reorder.

(** C67, what is missing above: drawing an empty text is undefined if bidirectional text is
    enabled (fribidi returns no levels for no characters). *)
Theorem C67_empty_text_refuted : forall (d : R -> R) shape glyph_path (fribidi : direction -> list Z -> option (list nat)) fonts dir rest pos ax ay t,
  fribidi dir [] = Some [] -> draw_text_op d shape glyph_path fribidi true fonts [] dir rest pos ax ay t = UB.
Proof. intros. unfold draw_text_op, reorder, analyze, analyze_freetype. cbn [flat_map sp_text app]. rewrite H. reflexivity. Qed.
Print Assumptions C67_empty_text_refuted.

(* ------------------------------------------------------------------ C68 *)
Local Open Scope R_scope.
(** C68. Which font is used for a run: the first one that has all its glyphs (glyph 0 means
    missing), or else the last one; an error of shaping with a font tried before is passed on. *)
Theorem C68_font : forall (shape : nat -> span -> outcome (list glyph)) (fonts : list nat) (s : span) (g : list glyph), fonts <> [] ->
  (fallback shape fonts s [] = Ret g <->
   exists before f after, fonts = before ++ f :: after /\ shape f s = Ret g /\
     (forall f', In f' before -> exists g', shape f' s = Ret g' /\ exists x, In x g' /\ g_code x = 0%N) /\
     (after = [] \/ forall x, In x g -> g_code x <> 0%N)) .
Proof.
  assert (CT : forall l, complete l = true <-> forall x, In x l -> g_code x <> 0%N).
  { intro l. unfold complete. rewrite forallb_forall. split; intros H x X; specialize (H x X).
    - intro Z. rewrite Z in H. discriminate. - destruct (N.eqb_spec (g_code x) 0); [contradiction|reflexivity]. }
  assert (CF : forall l, complete l = false <-> exists x, In x l /\ g_code x = 0%N).
  { intro l. induction l as [|a l IH]; [split; [discriminate|now intros (x & [] & _)]|]. unfold complete in *. cbn [forallb]. rewrite andb_false_iff, IH. split.
    - intros [H|(x & X & Y)]; [exists a; split; [now left|]|exists x; split; [now right|exact Y]]. destruct (N.eqb_spec (g_code a) 0); [assumption|discriminate].
    - intros (x & [X|X] & Y); [left; subst; now rewrite Y|right; eauto]. }
  assert (G : forall shape s fonts g last, fonts <> [] ->
    (fallback shape fonts s last = Ret g <->
     exists before f after, fonts = before ++ f :: after /\ shape f s = Ret g /\
       (forall f', In f' before -> exists g', shape f' s = Ret g' /\ exists x, In x g' /\ g_code x = 0%N) /\
       (after = [] \/ forall x, In x g -> g_code x <> 0%N))); [|intros; now apply G].
  intros shape s. induction fonts as [|f fonts IH]; intros g last NE; [congruence|]. cbn [fallback]. split.
  - destruct (shape f s) as [l| | | |] eqn:E; cbn [bind]; try discriminate. destruct (complete l) eqn:C.
    + intro X. injection X as ->. exists [], f, fonts. split; [reflexivity|]. split; [exact E|]. split; [intros f' []|]. right. now apply CT.
    + intro X. destruct fonts as [|f2 fonts].
      * cbn [fallback] in X. injection X as ->. exists [], f, []. split; [reflexivity|]. split; [exact E|]. split; [intros f' []|]. now left.
      * apply IH in X; [|discriminate]. destruct X as (b & f' & a & Q & S1 & S2 & S3). exists (f :: b), f', a. split; [now rewrite Q|]. split; [exact S1|].
        split; [|exact S3]. intros f'' [->|I]; [|now apply S2]. exists l. split; [exact E|]. now apply CF.
  - intros (b & f' & a & Q & S1 & S2 & S3). destruct b as [|f0 b]; injection Q as -> Q.
    + rewrite S1. cbn [bind]. subst fonts. destruct S3 as [->|S3]; [destruct (complete g); reflexivity|]. apply CT in S3. now rewrite S3.
    + destruct (S2 f0 (or_introl eq_refl)) as (g' & E & C). apply CF in C. rewrite E. cbn [bind]. rewrite C. apply IH; [now rewrite Q; destruct b|].
      exists b, f', a. split; [exact Q|]. split; [exact S1|]. split; [|exact S3]. intros f'' I. apply S2. now right.
Qed.
Print Assumptions C68_font.
Theorem C68_font_error : forall (shape : nat -> span -> outcome (list glyph)) (f : nat) (before after : list nat) (s : span) (last : list glyph),
  (forall f', In f' before -> exists g', shape f' s = Ret g' /\ exists x, In x g' /\ g_code x = 0%N) -> shape f s = Err ->
  fallback shape (before ++ f :: after) s last = Err.
Proof.
  intros shape f before after s. induction before as [|b before IH]; intros last B E; cbn [app fallback].
  - now rewrite E.
  - destruct (B b (or_introl eq_refl)) as (g' & E' & x & X & Z). rewrite E'. cbn [bind].
    assert (C : complete g' = false).
    { unfold complete. destruct (forallb _ _) eqn:C; [|reflexivity]. rewrite forallb_forall in C. specialize (C x X). rewrite Z in C. discriminate. }
    rewrite C. apply IH; [|exact E]. intros f' I. apply B. now right.
Qed.
Print Assumptions C68_font_error.

(** C68. The layout of a line whose spans are shaped to the glyphs [gls]. Every glyph of every
    span is placed on the baseline, in order; a glyph starts where its predecessor in the span
    ends, a span starts where its predecessor ends in left-to-right text and ends where its
    predecessor starts in right-to-left text (where the line starts at 0 and extends to the
    left). The bounding box is as wide as all glyphs together and reaches from the lowest to the
    highest glyph, the baseline included. *)
Theorem C68_layout : forall (shape : nat -> span -> outcome (list glyph)) (fonts : list nat) (base : direction) (line : list span) (gls : list (list rglyph)),
  Forall2 (fun s g => fallback shape fonts s [] = Ret (map to_glyph g)) line gls ->
  exists (qs : list (list placed)) (top bottom : R),
    layout_line exact shape fonts base line =
      Ret (concat qs, mk_rect (Fin (match base with LTR => 0 | RTL => - width (concat gls) end)) (Fin bottom) (Fin (width (concat gls))) (Fin (top - bottom))) /\
    largest0 (map rg_above (concat gls)) top /\ smallest0 (map rg_below (concat gls)) bottom /\
    length qs = length gls /\
    (forall i q, nth_error qs i = Some q -> exists s g, nth_error line i = Some s /\ nth_error gls i = Some g /\ length q = length g /\
       forall j p, nth_error q j = Some p -> exists x, nth_error g j = Some x /\
         p = mk_placed (rg_font x) (rg_code x)
               (Fin (match base with
                     | LTR => width (concat (firstn i gls)) + width (firstn j g)
                     | RTL => - width (concat (firstn (S i) gls)) + width (firstn j g) end)) (Fin 0) (sp_rest s)).
Proof.
  intros shape fonts base line gls F. assert (L : length line = length gls) by (clear - F; induction F; cbn [length]; congruence). unfold layout_line.
  rewrite (place_line_real _ _ base _ _ F). cbn [bind].
  exists (line_places base 0 line gls), (tops 0 (concat gls)), (bottoms 0 (concat gls)).
  split.
  { do 2 f_equal. unfold xsub, xneg, xadd, exact. rewrite Rplus_0_l. destruct base; reflexivity. }
  split; [apply tops_spec|]. split; [apply bottoms_spec|]. split; [now apply line_places_length|].
  intros i q Q. destruct (line_places_nth base line gls 0 i q L Q) as (s & g & A & B & C). exists s, g. split; [exact A|]. split; [exact B|].
  split; [rewrite C; apply places_length|]. intros j p P. rewrite C in P. apply places_nth in P as (x & X & ->). exists x. split; [exact X|].
  destruct base; rewrite !Rplus_0_l; reflexivity.
Qed.
Print Assumptions C68_layout.
Definition example_shape (f : nat) (s : span) : outcome (list glyph) :=
  Ret (map to_glyph (map (fun c => mk_rglyph f (if (f =? 0)%nat && (c =? 1488)%Z then 0%N else Z.to_N c) 10 8 (-2)) (sp_text s))).
Example C68_example : exists ps,
  layout_line exact example_shape [0; 1]%nat LTR [mk_span [97%Z; 98%Z] LTR 5; mk_span [1488%Z; 99%Z] RTL 5] =
    Ret (ps, mk_rect (Fin 0) (Fin (-2)) (Fin 40) (Fin 10)) /\
  map (fun p => (p_font p, p_code p, p_x p)) ps = [(0%nat, 97%N, Fin 0); (0%nat, 98%N, Fin 10); (1%nat, 1488%N, Fin 20); (1%nat, 99%N, Fin 30)].
Proof.
  eexists. split.
  - unfold layout_line.
    rewrite (place_line_real example_shape [0; 1]%nat LTR _
      [[mk_rglyph 0 97 10 8 (-2); mk_rglyph 0 98 10 8 (-2)]; [mk_rglyph 1 1488 10 8 (-2); mk_rglyph 1 99 10 8 (-2)]])
      by (repeat constructor).
    cbn [bind concat app]. unfold tops, bottoms, width. cbn [fold_left fold_right rg_above rg_below rg_width].
    assert (R1 : Rmax 8 0 = 8) by (apply Rmax_left; lra). assert (R2 : Rmax 8 8 = 8) by (apply Rmax_left; lra).
    assert (R3 : Rmin (-2) 0 = -2) by (apply Rmin_left; lra). assert (R4 : Rmin (-2) (-2) = -2) by (apply Rmin_left; lra).
    rewrite R1, !R2, R3, !R4. unfold xsub, xadd, xneg, exact.
    replace (8 + - -2) with 10 by ring. replace (0 + (10 + (10 + (10 + (10 + 0))))) with 40 by ring. reflexivity.
  - cbn [line_places places concat app map p_font p_code p_x sp_rest]. unfold width. cbn [fold_right rg_width rg_font rg_code]. repeat match goal with |- _ :: _ = _ :: _ => apply f_equal2 | |- (_, _) = (_, _) => apply f_equal2 | |- Fin _ = Fin _ => apply f_equal; ring end; reflexivity.
Qed.

(** C68. If no glyph has a negative width, the glyphs do not overlap and all lie within the
    bounding box. *)
Theorem C68_no_overlap : forall (shape : nat -> span -> outcome (list glyph)) (fonts : list nat) (base : direction) (line : list span) (gls : list (list rglyph)) ps x0 y0 w h,
  Forall2 (fun s g => fallback shape fonts s [] = Ret (map to_glyph g)) line gls ->
  Forall (fun g => 0 <= rg_width g) (concat gls) ->
  layout_line exact shape fonts base line = Ret (ps, mk_rect (Fin x0) (Fin y0) (Fin w) (Fin h)) ->
  forall k p g, nth_error ps k = Some p -> nth_error (concat gls) k = Some g ->
  exists x, p_x p = Fin x /\ x0 <= x /\ x + rg_width g <= x0 + w /\ y0 <= rg_below g /\ rg_above g <= y0 + h /\
    forall k' p' g' x', k <> k' -> nth_error ps k' = Some p' -> nth_error (concat gls) k' = Some g' -> p_x p' = Fin x' ->
      x + rg_width g <= x' \/ x' + rg_width g' <= x.
Proof.
  intros shape fonts base line gls ps x0 y0 w h F NN E.
  destruct (C68_layout shape fonts base line gls F) as (qs & top & bottom & E2 & T & B & LQ & ALL). rewrite E2 in E. injection E as <- <- <- <- <-.
  assert (IDX : forall k p g, nth_error (concat qs) k = Some p -> nth_error (concat gls) k = Some g ->
    exists i j gi, nth_error gls i = Some gi /\ nth_error gi j = Some g /\ k = (length (concat (firstn i gls)) + j)%nat /\
      p_x p = Fin (match base with LTR => width (concat (firstn i gls)) + width (firstn j gi) | RTL => - width (concat (firstn (S i) gls)) + width (firstn j gi) end)).
  { intros k p g P G. assert (SP : forall (l : list (list rglyph)) k g, nth_error (concat l) k = Some g ->
      exists i j gi, nth_error l i = Some gi /\ nth_error gi j = Some g /\ k = (length (concat (firstn i l)) + j)%nat).
    { clear. induction l as [|a l IH]; intros k g E; [destruct k; discriminate|]. cbn [concat] in E. destruct (Nat.lt_ge_cases k (length a)) as [K|K].
      - rewrite nth_error_app1 in E by exact K. exists 0%nat, k, a. auto.
      - rewrite nth_error_app2 in E by exact K. destruct (IH _ _ E) as (i & j & gi & A & B & C). exists (S i), j, gi. split; [exact A|]. split; [exact B|].
        cbn [firstn concat]. rewrite app_length. lia. }
    destruct (SP _ _ _ G) as (i & j & gi & A & A2 & C). exists i, j, gi. split; [exact A|]. split; [exact A2|]. split; [exact C|].
    assert (QI : exists q, nth_error qs i = Some q). { destruct (nth_error qs i) eqn:X; eauto. apply nth_error_None in X. assert (i < length gls)%nat by (apply nth_error_Some; congruence). lia. }
    destruct QI as [q QI]. destruct (ALL i q QI) as (s & g0 & S1 & S2 & S3 & S4). rewrite A in S2. injection S2 as <-.
    assert (LC : forall i, length (concat (firstn i qs)) = length (concat (firstn i gls))).
    { intro n. assert (LL : map (@length _) qs = map (@length _) gls).
      { apply same_nth. intro m. rewrite !nth_map. destruct (nth_error qs m) as [q'|] eqn:Q'.
        - destruct (ALL m q' Q') as (? & g1 & _ & G1 & G2 & _). rewrite G1. cbn [option_map]. now rewrite G2.
        - apply nth_error_None in Q'. rewrite LQ in Q'. apply nth_error_None in Q'. now rewrite Q'. }
      clear - LL. revert gls LL n. induction qs as [|a qs IH]; intros [|b gls] LL [|n]; try discriminate; try reflexivity. cbn [firstn concat]. rewrite !app_length. injection LL as L1 L2. now rewrite L1, (IH _ L2). }
    assert (PJ : nth_error q j = Some p).
    { rewrite <- (firstn_skipn i qs), concat_app, nth_error_app2 in P by (rewrite LC; lia). rewrite LC in P. replace (k - length (concat (firstn i gls)))%nat with j in P by lia.
      assert (SK : skipn i qs = q :: skipn (S i) qs). { clear - QI. revert i QI. induction qs as [|a l IH]; intros [|i] Q; try discriminate; cbn in *; [congruence|auto]. }
      rewrite SK in P. cbn [concat] in P. rewrite nth_error_app1 in P; [exact P|]. rewrite S3. apply nth_error_Some. congruence. }
    destruct (S4 j p PJ) as (x & X & ->). rewrite A2 in X. injection X as <-. reflexivity. }
  assert (FI : forall i gi, nth_error gls i = Some gi -> Forall (fun g => 0 <= rg_width g) gi).
  { intros i gi G. rewrite Forall_forall in *. intros g I. apply NN. apply in_concat. exists gi. split; [eapply nth_error_In; eassumption|exact I]. }
  assert (FN : forall n, Forall (fun g => 0 <= rg_width g) (concat (firstn n gls)) /\ Forall (fun g => 0 <= rg_width g) (concat (skipn n gls))).
  { intro n. rewrite <- (firstn_skipn n gls), concat_app in NN. now apply Forall_app in NN. }
  assert (ST : forall i gi, nth_error gls i = Some gi -> width (concat (firstn (S i) gls)) = width (concat (firstn i gls)) + width gi).
  { intros i gi G. assert (Q : firstn (S i) gls = firstn i gls ++ [gi]).
    { clear - G. revert i G. induction gls as [|a l IH]; intros [|i] Q; try discriminate; cbn in *; [congruence|]. f_equal. now apply IH. }
    rewrite Q, concat_app, width_app. cbn [concat]. now rewrite app_nil_r. }
  assert (MONO : forall n m, (n <= m)%nat -> width (concat (firstn n gls)) <= width (concat (firstn m gls))).
  { intros n m L. rewrite <- (firstn_skipn n (firstn m gls)), firstn_firstn, Nat.min_l, concat_app, width_app by lia.
    assert (0 <= width (concat (skipn n (firstn m gls)))); [|lra]. apply width_nonneg.
    destruct (FN m) as [X _]. rewrite <- (firstn_skipn n (firstn m gls)), concat_app in X. now apply Forall_app in X. }
  assert (ALLW : forall n, width (concat (firstn n gls)) <= width (concat gls)).
  { intro n. rewrite <- (firstn_all gls) at 2. destruct (Nat.le_ge_cases n (length gls)); [now apply MONO|]. rewrite !firstn_all2 by lia. lra. }
  intros k p g Pk Gk. destruct (IDX k p g Pk Gk) as (i & j & gi & A & A2 & C & X). rewrite X. eexists. split; [reflexivity|].
  pose proof (width_firstn_le gi j g (FI i gi A) A2) as W1. pose proof (ST i gi A) as W2. pose proof (ALLW (S i)) as W3.
  assert (W4 : 0 <= width (firstn j gi)). { apply width_nonneg. pose proof (FI i gi A) as Y. rewrite <- (firstn_skipn j gi) in Y. now apply Forall_app in Y. }
  assert (W5 : 0 <= width (concat (firstn i gls))) by (apply width_nonneg, FN).
  assert (IG : In g (concat gls)) by (eapply nth_error_In; eassumption).
  split; [destruct base; lra|]. split; [destruct base; lra|].
  split; [destruct B as [_ B]; apply B; right; now apply in_map|].
  split; [destruct T as [_ T]; replace (bottom + (top - bottom)) with top by ring; apply T; right; now apply in_map|].
  intros k' p' g' x' NK Pk' Gk' X'. destruct (IDX k' p' g' Pk' Gk') as (i' & j' & gi' & A' & A2' & C' & X2). rewrite X2 in X'. apply (f_equal (fun v => match v with Fin r => r | _ => 0 end)) in X'. cbv beta iota in X'. subst x'.
  pose proof (width_firstn_le gi' j' g' (FI i' gi' A') A2') as W1'. pose proof (ST i' gi' A') as W2'.
  assert (W4' : 0 <= width (firstn j' gi')). { apply width_nonneg. pose proof (FI i' gi' A') as Y. rewrite <- (firstn_skipn j' gi') in Y. now apply Forall_app in Y. }
  assert (INNER : forall l a b ga, Forall (fun g => 0 <= rg_width g) l -> (a < b)%nat -> nth_error l a = Some ga -> width (firstn a l) + rg_width ga <= width (firstn b l)).
  { clear. intros l a b ga FA L Ga. pose proof (width_firstn_le (firstn b l) a ga) as Y. rewrite firstn_firstn, Nat.min_l in Y by lia. apply Y.
    - rewrite <- (firstn_skipn b l) in FA. now apply Forall_app in FA.
    - assert (LA : (a < length l)%nat) by (apply nth_error_Some; congruence).
      rewrite <- (firstn_skipn b l), nth_error_app1 in Ga by (rewrite firstn_length; lia). exact Ga. }
  destruct (lt_eq_lt_dec i i') as [[I|I]|I].
  - pose proof (MONO (S i) i' ltac:(lia)). pose proof (MONO (S i) (S i') ltac:(lia)). destruct base; [left; lra|right; lra].
  - subst i'. rewrite A in A'. injection A' as <-. destruct (lt_eq_lt_dec j j') as [[J|J]|J]; [left|subst; lia|right].
    + pose proof (INNER gi j j' g (FI i gi A) J A2). destruct base; lra.
    + pose proof (INNER gi j' j g' (FI i gi A) J A2'). destruct base; lra.
  - pose proof (MONO (S i') i ltac:(lia)). pose proof (MONO (S i') (S i) ltac:(lia)). destruct base; [right; lra|left; lra].
Qed.
Print Assumptions C68_no_overlap.

(* ------------------------------------------------------------------ C69 *)
(** C69. A line of text that is laid out within the box (x0, y0, w, h): the offset [off] moves
    the side, or the centre, of the box that the alignment names to the given position, and what
    is drawn is the outline of every glyph, in order, moved by its place in the line plus [off]. *)
Definition outlines (glyph_path : nat -> N -> outcome path) (gl : list placed) (l : list (R * path * list pt)) : Prop :=
  Forall2 (fun g t => let '(x, p, q) := t in p_x g = Fin x /\ p_y g = Fin 0 /\ glyph_path (p_font g) (p_code g) = Ret p /\ points p = map P q) gl l.
Definition aligned (x0 y0 w h : R) (pos : pt) (ax : halign) (ay : valign) (off : pt) : Prop :=
  match ax with HLeft => x0 + fst off = fst pos | HCenter => x0 + fst off + w / 2 = fst pos | HRight => x0 + fst off + w = fst pos end /\
  match ay with VBottom => y0 + snd off = snd pos | VCenter => y0 + snd off + h / 2 = snd pos | VTop => y0 + snd off + h = snd pos end.
(** [p] is [outline] with every point moved by [f]. *)
Definition moved (f : pt -> pt) (outline : path) (q : list pt) (p : path) : Prop := kinds p = kinds outline /\ points p = map P (map f q).

Lemma glyph_shapes_real glyph_path t f off : (forall x q, move_point exact (glyph_transform exact t (P off) (mk_placed 0 0 (Fin x) (Fin 0) 0)) (P q) = P (f x q)) ->
  forall gl l, outlines glyph_path gl l -> exists ps, glyph_shapes exact glyph_path t (P off) gl = Ret ps /\
    Forall2 (fun t p => let '(x, o, q) := t in moved (f x) o q p) l ps.
Proof.
  intros F gl l O. induction O as [|g [[x p] q] gl l (A & B & C & D) O IH]; cbn [glyph_shapes].
  - exists []. split; [reflexivity|constructor].
  - rewrite C. cbn [bind]. destruct IH as (ps & -> & IH). cbn [bind]. eexists. split; [reflexivity|]. constructor; [|exact IH].
    assert (GT : glyph_transform exact t (P off) g = glyph_transform exact t (P off) (mk_placed 0 0 (Fin x) (Fin 0) 0)) by (unfold glyph_transform; cbn [p_x p_y]; rewrite A, B; reflexivity).
    destruct (C43_path exact p (glyph_transform exact t (P off) g)) as [K1 K2]. split; [exact K1|]. rewrite K2, D, !map_map. apply map_ext. intro z. rewrite GT. apply F.
Qed.
Lemma affine_mul a b c e f g a' b' c' e' f' g' : mmul exact (M a b c e f g 0 0 1) (M a' b' c' e' f' g' 0 0 1) =
  M (a * a' + b * e') (a * b' + b * f') (a * c' + b * g' + c) (e * a' + f * e') (e * b' + f * f') (e * c' + f * g' + g) 0 0 1.
Proof. unfold M, mmul, sum3. cbn [ma mb mc md me mf mg mh mi]. unfold xadd, xmul, exact. f_equal; f_equal; ring. Qed.
Lemma rotation_matrix c a : mmul exact (translate2 (P c)) (mmul exact (rotate2 exact (Fin a)) (translate2 (mk_vec2 (xneg (vx (P c))) (xneg (vy (P c)))))) =
  let t := a * PI / 180 in M (cos t) (sin t) (fst c - fst c * cos t - snd c * sin t) (- sin t) (cos t) (snd c + fst c * sin t - snd c * cos t) 0 0 1.
Proof.
  rewrite rotate2_fin. change (translate2 (P c)) with (M 1 0 (fst c) 0 1 (snd c) 0 0 1).
  change (translate2 _) with (M 1 0 (- fst c) 0 1 (- snd c) 0 0 1). rewrite !affine_mul. cbv zeta. f_equal; ring.
Qed.
Theorem C69_placed : forall (shape : nat -> span -> outcome (list glyph)) (glyph_path : nat -> N -> outcome path) (fribidi : direction -> list Z -> option (list nat))
    (bidi : bool) (fonts : list nat) (text : list Z) (dir : direction) (rest : nat) (pos : pt) (ax : halign) (ay : valign) line gl l (x0 y0 w h : R),
  reorder fribidi bidi [mk_span text dir rest] dir = Ret line ->
  layout_line exact shape fonts dir line = Ret (gl, mk_rect (Fin x0) (Fin y0) (Fin w) (Fin h)) -> outlines glyph_path gl l ->
  exists off ps, aligned x0 y0 w h pos ax ay off /\
    draw_text_op exact shape glyph_path fribidi bidi fonts text dir rest (P pos) ax ay None = Ret ps /\
    Forall2 (fun t p => let '(x, outline, q) := t in moved (fun z => plus z (x + fst off, snd off)) outline q p) l ps.
Proof.
  intros shape glyph_path fribidi bidi fonts text dir rest pos ax ay line gl l x0 y0 w h R L O.
  destruct (C45_align x0 y0 w h pos ax ay) as (off & E & A). 
  destruct (glyph_shapes_real glyph_path None (fun x z => plus z (x + fst off, snd off)) off) with (gl := gl) (l := l) as (ps & G & F); [|exact O|].
  - intros x q. unfold glyph_transform. cbn [p_x p_y]. change (mk_vec2 _ _) with (P (x + fst off, 0 + snd off)). rewrite (proj1 (C43_builders q _ 0 0)). rewrite Rplus_0_l. reflexivity.
  - exists off, ps. split; [exact A|]. split; [|exact F]. unfold draw_text_op. rewrite R. cbn [bind]. rewrite L. cbn [bind]. rewrite E. exact G.
Qed.
Print Assumptions C69_placed.
(** C69. Rotated text is the same text turned about its position, clockwise (where y points up)
    by the angle in degrees; no angle, no rotation. *)
Theorem C69_rotated : forall (shape : nat -> span -> outcome (list glyph)) (glyph_path : nat -> N -> outcome path) (fribidi : direction -> list Z -> option (list nat))
    (bidi : bool) (fonts : list nat) (text : list Z) (dir : direction) (rest : nat) (pos : pt) (ax : halign) (ay : valign) line gl l (x0 y0 w h deg : R),
  reorder fribidi bidi [mk_span text dir rest] dir = Ret line ->
  layout_line exact shape fonts dir line = Ret (gl, mk_rect (Fin x0) (Fin y0) (Fin w) (Fin h)) -> outlines glyph_path gl l ->
  exists off ps, aligned x0 y0 w h pos ax ay off /\
    draw_text_op exact shape glyph_path fribidi bidi fonts text dir rest (P pos) ax ay (text_rotation exact (P pos) (Fin deg)) = Ret ps /\
    Forall2 (fun t p => let '(x, outline, q) := t in moved (fun z => turn (- (deg * PI / 180)) pos (plus z (x + fst off, snd off))) outline q p) l ps.
Proof.
  intros shape glyph_path fribidi bidi fonts text dir rest pos ax ay line gl l x0 y0 w h deg R L O. unfold text_rotation.
  destruct (xeq (Fin deg) (Fin 0)) eqn:Z.
  { unfold xeq in Z. destruct (Req_EM_T deg 0) as [->|]; [|discriminate]. destruct (C69_placed shape glyph_path fribidi bidi fonts text dir rest pos ax ay line gl l x0 y0 w h R L O) as (off & ps & A & B & C).
    exists off, ps. split; [exact A|]. split; [exact B|]. clear - C. induction C as [|[[x o] q] p l ps [C1 C2] C IH]; constructor; auto. split; [exact C1|]. rewrite C2. f_equal. apply map_ext. intro z.
    unfold turn. replace (- (0 * PI / 180)) with 0 by (field). rewrite cos_0, sin_0. destruct z. unfold plus. cbn [fst snd]. f_equal; ring. }
  clear Z. destruct (C45_align x0 y0 w h pos ax ay) as (off & E & A).
  match goal with |- context [Some ?m] => set (t := m) end.
  destruct (glyph_shapes_real glyph_path (Some t) (fun x z => turn (- (deg * PI / 180)) pos (plus z (x + fst off, snd off))) off) with (gl := gl) (l := l) as (ps & G & F); [|exact O|].
  - intros x q. unfold glyph_transform, t. cbn [p_x p_y]. rewrite rotation_matrix. cbv zeta.
    change (translate2 _) with (M 1 0 (x + fst off) 0 1 (0 + snd off) 0 0 1). rewrite affine_mul, C43_point.
    unfold P, plus, turn. cbn [fst snd]. rewrite cos_neg, sin_neg. f_equal; f_equal; ring.
  - exists off, ps. split; [exact A|]. split; [|exact F]. unfold draw_text_op. rewrite R. cbn [bind]. rewrite L. cbn [bind]. rewrite E. exact G.
Qed.
Print Assumptions C69_rotated.
(** C69. Turning keeps the position itself and all distances. *)
Theorem C69_turn : forall (t : R) (c q r : pt), turn t c c = c /\ dist2 (turn t c q) (turn t c r) = dist2 q r.
Proof.
  intros t [cx cy] [qx qy] [rx ry]. unfold turn, dist2, inner, minus. cbn [fst snd]. split; [f_equal; ring|].
  pose proof (sin2_cos2 t) as K. unfold Rsqr in K.
  transitivity (((qx - rx) * (qx - rx) + (qy - ry) * (qy - ry)) * (sin t * sin t + cos t * cos t)); [ring|rewrite K; ring].
Qed.
Print Assumptions C69_turn.
Example C69_example : let gp := fun (_ : nat) (_ : N) => Ret [MoveTo (P (0, 0)); LineTo (P (5, 8)); Close] in
  let line := [mk_span [97%Z; 98%Z] LTR 0] in
  reorder (fun _ _ => None) false [mk_span [97%Z; 98%Z] LTR 0] LTR = Ret line /\
  exists gl l, layout_line exact example_shape [0%nat] LTR line = Ret (gl, mk_rect (Fin 0) (Fin (-2)) (Fin 20) (Fin 10)) /\
    outlines gp gl l /\ length l = 2%nat.
Proof.
  cbv zeta. split; [reflexivity|]. do 2 eexists. split; [|split].
  - unfold layout_line.
    rewrite (place_line_real example_shape [0]%nat LTR _ [[mk_rglyph 0 97 10 8 (-2); mk_rglyph 0 98 10 8 (-2)]]) by (repeat constructor).
    cbn [bind concat app]. unfold tops, bottoms, width. cbn [fold_left fold_right rg_above rg_below rg_width].
    assert (R1 : Rmax 8 0 = 8) by (apply Rmax_left; lra). assert (R2 : Rmax 8 8 = 8) by (apply Rmax_left; lra).
    assert (R3 : Rmin (-2) 0 = -2) by (apply Rmin_left; lra). assert (R4 : Rmin (-2) (-2) = -2) by (apply Rmin_left; lra).
    rewrite R1, !R2, R3, !R4. unfold xsub, xadd, xneg, exact.
    replace (8 + - -2) with 10 by ring. replace (0 + (10 + (10 + 0))) with 20 by ring. reflexivity.
  - cbn [line_places places concat app]. unfold outlines.
    eapply (Forall2_cons _ (_, [MoveTo (P (0, 0)); LineTo (P (5, 8)); Close], [(0, 0); (5, 8)])); [repeat split|]. eapply (Forall2_cons _ (_, [MoveTo (P (0, 0)); LineTo (P (5, 8)); Close], [(0, 0); (5, 8)])); [repeat split|]. constructor.
  - reflexivity.
Qed.
