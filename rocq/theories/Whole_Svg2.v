(** Series as entries of the SVG file, for C106. *)
From Coq Require Import Reals Lra.
From Verif Require Import Base Num Num_Facts Dec Color_Model Color_Spec Color_Proofs Color_Props Geo_Model Geo_Props Svg_Model Svg_Spec Svg_Embed Svg_Proofs Svg_Props Whole_Spec Whole_Svg Whole_Spec2.
From Flocq Require Import Core.
Local Open Scope R_scope.

Lemma rnd64_abs2 x : Rabs x <= 262144 -> Rabs (rnd64 x - x) <= / 34359738368.
Proof.
  intros H. unfold rnd64. eapply Rle_trans; [apply error_le_half_ulp; auto with typeclass_instances|].
  assert (ulp radix2 (FLT_exp (-1074) 53) x <= bpow radix2 (-34)).
  { destruct (Req_dec x 0) as [->|N].
    - rewrite (@ulp_FLT_0 radix2 (-1074) 53 eq_refl). apply bpow_le. lia.
    - rewrite ulp_neq_0 by exact N. apply bpow_le. unfold cexp, FLT_exp.
      assert (mag radix2 x <= 19)%Z by (apply mag_le_bpow; [exact N|eapply Rle_lt_trans; [exact H|cbn; lra]]). lia. }
  replace (/ 34359738368) with (/ 2 * bpow radix2 (-34)) by (cbn; lra). lra.
Qed.
(** [y] is [x] but for roundings, and not far away. *)
Definition nearly (e b x y : R) : Prop := is64 y /\ Rabs (y - x) <= e /\ Rabs x <= b.
Definition e0 : R := / 100000000.
Lemma nearly_add e b e' b' x y x' y' : nearly e b x y -> nearly e' b' x' y' -> 0 <= e <= 1 -> 0 <= e' <= 1 -> b + b' <= 200000 ->
  nearly (e + e' + / 34359738368) (b + b') (x + x') (rnd64 (y + y')).
Proof.
  intros (_ & A & B) (_ & A' & B') E E' L. split; [apply rnd64_is|].
  apply Rabs_le_inv in A, B, A', B'. pose proof (rnd64_abs2 (y + y') ltac:(apply Rabs_le; lra)) as D. apply Rabs_le_inv in D. split; apply Rabs_le; lra.
Qed.
Lemma nearly_opp e b x y : nearly e b x y -> nearly e b (- x) (- y).
Proof. intros (I & A & B). split; [now apply generic_format_opp|]. apply Rabs_le_inv in A, B. split; apply Rabs_le; lra. Qed.
Lemma nearly_almost e b x y : nearly e b x y -> e <= / 10000000 -> almost x y.
Proof. intros (_ & A & _) E. unfold almost. lra. Qed.
Lemma nearly_small e b x y : nearly e b x y -> 0 <= e <= 1 -> b <= 500000000 -> small y.
Proof. intros (_ & A & B) E L. unfold small. apply Rabs_le_inv in A, B. apply Rabs_le. lra. Qed.
Lemma nearly_is64 e b x y : nearly e b x y -> is64 y.
Proof. now intros (I & _). Qed.

(** The circle of the program in binary64. *)
Definition circ (x y r k : R) : list (seg R) :=
  let p a b := rnd64 (a + b) in let m a b := rnd64 (a + - b) in
  [SMove x (m y r); SCubic (m x k) (m y r) (m x r) (m y k) (m x r) y; SCubic (m x r) (p y k) (m x k) (p y r) x (p y r);
   SCubic (p x k) (p y r) (p x r) (p y k) (p x r) y; SCubic (p x r) (m y k) (p x k) (m y r) x (m y r); SClose].
Definition radius (v : R) : R := rnd64 (v * (1 / 2)).
Definition handle (v : R) : R := rnd64 (radius v * rnd64 (552284749831 / 1000000000000)).
Lemma circle_circ x y v : add_circle rnd64 [] (mk_vec2 (Fin x) (Fin y)) (xmul rnd64 (Fin v) (Fin (1 / 2))) = map command (circ x y (radius v) (handle v)).
Proof. reflexivity. Qed.
Lemma sizes_near v s : is64 v -> 0 < v <= 65536 -> Rabs (v - s) <= / 1000000000 -> 0 < s <= 65536 ->
  nearly (/ 500000000) 32768 (s / 2) (radius v) /\ nearly (/ 400000000) 32768 (s / 2 * (552284749831 / 1000000000000)) (handle v).
Proof.
  intros I B A S. apply Rabs_le_inv in A.
  pose proof (rnd64_abs2 (v * (1 / 2)) ltac:(apply Rabs_le; lra)) as D. apply Rabs_le_inv in D. fold (radius v) in D.
  pose proof (rnd64_unit (552284749831 / 1000000000000) ltac:(lra)) as K. replace (bpow radix2 (-53)) with (/ 9007199254740992) in K by reflexivity. apply Rabs_le_inv in K.
  unfold handle. set (k := rnd64 (552284749831 / 1000000000000)) in *. assert (RP : - 1 <= radius v <= 32769) by lra.
  assert (KP : 55 / 100 <= k <= 56 / 100) by lra.
  assert (KB : - 1 <= radius v * k <= 32769) by nra.
  pose proof (rnd64_abs2 (radius v * k) ltac:(apply Rabs_le; lra)) as D2. apply Rabs_le_inv in D2.
  split; (split; [apply rnd64_is|]); (split; [|apply Rabs_le; lra]); apply Rabs_le; [lra|].
  set (c := 552284749831 / 1000000000000) in *. assert (CP : 55 / 100 <= c <= 56 / 100) by (unfold c; lra).
  assert (X : radius v * k - s / 2 * c = (radius v - s / 2) * k + s / 2 * (k - c)) by ring.
  assert (Y1 : - (/ 600000000) <= (radius v - s / 2) * k <= / 600000000) by nra.
  assert (Y2 : - (/ 10000000000) <= s / 2 * (k - c) <= / 10000000000) by nra.
  lra.
Qed.
Ltac near_ok := first [eassumption | eapply nearly_add; [near_ok | near_ok | lra | lra | lra] | eapply nearly_opp; near_ok].
Lemma circ_ok x y X Y v s h : nearly (/ 1000000000) 65536 X x -> nearly (/ 1000000000) 65536 Y y -> is64 h -> 0 <= h <= 65536 ->
  is64 v -> 0 < v <= 65536 -> Rabs (v - s) <= / 1000000000 -> 0 < s <= 65536 ->
  good_outline (circ x y (radius v) (handle v)) /\ small_outline (circ x y (radius v) (handle v)) /\
  Forall2 (seg_rel almost) (disc (s / 2) (X, h - Y)) (map (flip h) (circ x y (radius v) (handle v))).
Proof.
  intros NX NY H BH I B A S. destruct (sizes_near v s I B A S) as [NR NK].
  assert (NH : nearly 0 65536 h h) by (split; [exact H|]; split; [rewrite Rminus_diag_eq, Rabs_R0 by reflexivity; lra|apply Rabs_le; lra]).
  assert (F : forall z Z e b, nearly e b Z z -> 0 <= e <= / 20000000 -> b <= 100000 -> almost (h - Z) (rnd64 (h - z))).
  { intros z Z e b N L Lb. pose proof (nearly_add _ _ _ _ _ _ _ _ NH (nearly_opp _ _ _ _ N) ltac:(lra) ltac:(lra) ltac:(lra)) as Q. apply (nearly_almost _ _ _ _ Q). lra. }
  split; [|split].
  - unfold good_outline, circ. cbn. repeat (apply Forall_cons; [repeat (apply Forall_cons; [first [apply rnd64_is | apply NX | apply NY]|]); apply Forall_nil|]). apply Forall_nil.
  - unfold small_outline, circ. cbn.
    repeat (apply Forall_cons; [repeat (apply Forall_cons; [eapply nearly_small; [near_ok|lra|lra]|]); apply Forall_nil|]). apply Forall_nil.
  - unfold disc, circ. cbn [map flip]. set (k := s / 2 * _) in *.
    assert (U : forall z Z e b, nearly e b Z z -> e <= / 10000000 -> almost Z z) by (intros; eapply nearly_almost; eassumption).
    replace (h - Y + s / 2) with (h - (Y + - (s / 2))) by ring. replace (h - Y + k) with (h - (Y + - k)) by ring.
    replace (h - Y - s / 2) with (h - (Y + s / 2)) by ring. replace (h - Y - k) with (h - (Y + k)) by ring.
    change (X - k) with (X + - k). change (X - s / 2) with (X + - (s / 2)).
    repeat (apply Forall2_cons; [constructor; first [eapply F; [near_ok|lra|lra] | eapply U; [near_ok|lra]]|]). apply Forall2_nil.
Qed.

(* ---------------- colours ---------------- *)
Definition byte (n : nat) : R := rnd32 (INR n / 255).
Lemma byte_unit n : (n <= 255)%nat -> 0 <= byte n <= 1.
Proof.
  intro L. apply le_INR in L. replace (INR 255) with 255 in L by (rewrite INR_IZR_INZ; reflexivity). pose proof (pos_INR n).
  unfold byte. split.
  - rewrite <- (rnd32_id 0) at 1; [apply rnd32_mono|apply generic_format_0]. apply Rmult_le_pos; lra.
  - rewrite <- (rnd32_id 1); [apply rnd32_mono; lra|]. apply FLT.generic_format_FLT. exists (Float radix2 1 0); [unfold F2R; cbn; lra|reflexivity|cbn; lia].
Qed.
Lemma byte_channel n m : (n <= 255)%nat -> channel (byte n) m -> n = m.
Proof.
  intros L [A B]. pose proof (level_255 n L) as T. cbn [xmul to_int] in T. fold (byte n) in T. set (y := rnd64 (byte n * 255)) in *.
  assert (P : 0 <= y) by (pose proof (pos_INR m); lra). destruct (_ && _); [|discriminate]. injection T as T.
  rewrite Ztrunc_floor in T by exact P. rewrite INR_IZR_INZ in A, B.
  rewrite (Zfloor_imp (Z.of_nat m) y) in T; [lia|]. rewrite plus_IZR. lra.
Qed.
Lemma only_bytes a b c : (a <= 255)%nat -> (b <= 255)%nat -> (c <= 255)%nat -> only (a, b, c) (mk_rgba (byte a) (byte b) (byte c) 1).
Proof.
  intros A B C [[x y] z] (X & Y & Z). cbn [q_r q_g q_b fst snd] in *.
  now rewrite (byte_channel a x A X), (byte_channel b y B Y), (byte_channel c z C Z).
Qed.
(** The colour of a series. *)
Definition fine_color (l : level) (q : rgba) : Prop := unit_interval q /\ q_a q = 1 /\ only l q.
Lemma fine_black : fine_color black_ (mk_rgba 0 0 0 1).
Proof. split; [unfold unit_interval; cbn; lra|]. split; [reflexivity|exact only_black]. Qed.
Lemma fine_bytes a b c : (a <= 255)%nat -> (b <= 255)%nat -> (c <= 255)%nat -> fine_color (a, b, c) (mk_rgba (byte a) (byte b) (byte c) 1).
Proof.
  intros A B C. split; [|split; [reflexivity|now apply only_bytes]].
  unfold unit_interval. cbn [q_r q_g q_b q_a]. split; [now apply byte_unit|]. split; [now apply byte_unit|]. split; [now apply byte_unit|lra].
Qed.
Lemma hex_reads f palette a1 a2 b1 b2 c1 c2 n1 n2 n3 n4 n5 n6 :
  hexd a1 n1 -> hexd a2 n2 -> hexd b1 n3 -> hexd b2 n4 -> hexd c1 n5 -> hexd c2 n6 -> f = rnd32 -> forall stod old,
  expr_to_color f stod palette [Sexpr_Model.ELit ["#"%char; a1; a2; b1; b2; c1; c2]] old =
    Ret (col (mk_rgba (byte (16 * n1 + n2)) (byte (16 * n3 + n4)) (byte (16 * n5 + n6)) 1)) /\
  fine_color (16 * n1 + n2, 16 * n3 + n4, 16 * n5 + n6)%nat (mk_rgba (byte (16 * n1 + n2)) (byte (16 * n3 + n4)) (byte (16 * n5 + n6)) 1).
Proof.
  intros A1 A2 B1 B2 C1 C2 -> stod old. destruct (C39_round_trip a1 a2 b1 b2 c1 c2 n1 n2 n3 n4 n5 n6 old A1 A2 B1 B2 C1 C2) as [P _].
  split.
  - unfold expr_to_color. rewrite begins_hash, P. reflexivity.
  - apply hexd_inv in A1 as [A1 _], A2 as [A2 _], B1 as [B1 _], B2 as [B2 _], C1 as [C1 _], C2 as [C2 _]. apply fine_bytes; lia.
Qed.

(* ---------------- entries of the file ---------------- *)
(** A list of drawing commands whose pictures in a file of height [h] are [ps]. *)
Definition drawn_as sort_cw fuel (h : R) (l : list draw_command) (ps : list (paint R level)) : Prop :=
  exists items, l = map item_cmd items /\ Forall (good_item sort_cw fuel) items /\ Forall small_item items /\
    Forall2 (paint_rel almost only) ps (flat_map (fun i => expected h (i_shape i) (i_lines i)) items).
Lemma drawn_app sort_cw fuel h l ps l' ps' : drawn_as sort_cw fuel h l ps -> drawn_as sort_cw fuel h l' ps' -> drawn_as sort_cw fuel h (l ++ l') (ps ++ ps').
Proof.
  intros (i & -> & G & S & P) (i' & -> & G' & S' & P'). exists (i ++ i'). rewrite map_app, flat_map_app. split; [reflexivity|].
  split; [now apply Forall_app|]. split; [now apply Forall_app|]. now apply Forall2_app.
Qed.
Lemma drawn_nil sort_cw fuel h : drawn_as sort_cw fuel h [] [].
Proof. exists []. split; [reflexivity|]. split; [constructor|]. split; constructor. Qed.
Lemma drawn_fill sort_cw fuel h o c l ideal : good_outline o -> small_outline o -> Forall2 (seg_rel almost) ideal (map (flip h) o) -> fine_color l c ->
  drawn_as sort_cw fuel h [draw_shape (mk_cmd (map command o) (mk_compound [] [] [] []) stroke0 (mk_fill (Some (col c)) false (Fin 0) (Fin 0) (Fin 0) (Fin 0)) None)] [Fill ideal l 1 false].
Proof.
  intros G S F (U & A & O).
  destruct (C48_draw (mk_shape o [] [] [] [] None) (Solid c) NoLine) as (ss & fs & E); [discriminate|discriminate|].
  exists [mk_item (with_style (Solid c) NoLine (mk_shape o [] [] [] [] None)) [] ss fs]. split; [|split; [|split]].
  - cbn [map]. unfold item_cmd. cbn [i_shape i_stroke i_fill]. rewrite <- E. reflexivity.
  - constructor; [|constructor]. split; [|split; constructor]. cbn [i_shape with_style]. split; [exact G|]. cbn [sh_fills sh_hatches sh_strokes sh_dashes app].
    split; [constructor; [exact U|constructor]|]. split; [constructor|split; constructor].
  - constructor; [|constructor]. unfold small_item. cbn [i_shape with_style i_lines sh_outline sh_strokes sh_dashes app]. split; [exact S|]. split; [constructor|split; constructor].
  - cbn [flat_map i_shape i_lines with_style]. unfold expected. cbn [with_style sh_fills sh_hatches sh_strokes sh_dashes sh_outline sh_aa map app combine fst snd]. rewrite A.
    constructor; [|constructor]. constructor; [exact F|exact O|apply almost_refl].
Qed.
Lemma drawn_fill0 sort_cw fuel h o c l ideal : good_outline o -> small_outline o -> Forall2 (seg_rel almost) ideal (map (flip h) o) -> fine_color l c ->
  drawn_as sort_cw fuel h [draw_shape (mk_cmd (map command o) (mk_compound [] [] [] []) (mk_stroke_style (Fin 0) (col c) false (Fin 0) []) (mk_fill (Some (col c)) false (Fin 0) (Fin 0) (Fin 0) (Fin 0)) None)] [Fill ideal l 1 false].
Proof.
  intros G S F (U & A & O).
  destruct (C48_no_line (mk_shape o [] [] [] [] None) (Solid c) (Line c 0) eq_refl) as (ss & fs & E).
  exists [mk_item (with_style (Solid c) NoLine (mk_shape o [] [] [] [] None)) [] ss fs]. split; [|split; [|split]].
  - cbn [map]. unfold item_cmd. cbn [i_shape i_stroke i_fill]. rewrite <- E. reflexivity.
  - constructor; [|constructor]. split; [|split; constructor]. cbn [i_shape with_style]. split; [exact G|]. cbn [sh_fills sh_hatches sh_strokes sh_dashes app].
    split; [constructor; [exact U|constructor]|]. split; [constructor|split; constructor].
  - constructor; [|constructor]. unfold small_item. cbn [i_shape with_style i_lines sh_outline sh_strokes sh_dashes app]. split; [exact S|]. split; [constructor|split; constructor].
  - cbn [flat_map i_shape i_lines with_style]. unfold expected. cbn [with_style sh_fills sh_hatches sh_strokes sh_dashes sh_outline sh_aa map app combine fst snd]. rewrite A.
    constructor; [|constructor]. constructor; [exact F|exact O|apply almost_refl].
Qed.
Lemma drawn_none sort_cw fuel h o c : good_outline o -> small_outline o ->
  drawn_as sort_cw fuel h [draw_shape (mk_cmd (map command o) (mk_compound [] [] [] []) (mk_stroke_style (Fin 0) (col c) false (Fin 0) []) fill0 None)] [].
Proof.
  intros G S.
  destruct (C48_no_line (mk_shape o [] [] [] [] None) NoFill (Line c 0) eq_refl) as (ss & fs & E).
  exists [mk_item (with_style NoFill NoLine (mk_shape o [] [] [] [] None)) [] ss fs]. split; [|split; [|split]].
  - cbn [map]. unfold item_cmd. cbn [i_shape i_stroke i_fill]. rewrite <- E. reflexivity.
  - constructor; [|constructor]. split; [|split; constructor]. cbn [i_shape with_style]. split; [exact G|]. cbn [sh_fills sh_hatches sh_strokes sh_dashes app].
    split; [constructor|]. split; [constructor|split; constructor].
  - constructor; [|constructor]. unfold small_item. cbn [i_shape with_style i_lines sh_outline sh_strokes sh_dashes app]. split; [exact S|]. split; [constructor|split; constructor].
  - cbn. constructor.
Qed.
(** Lines through points that are nearly those of the picture. *)
Definition close_by (h : R) (P q : R * R) : Prop := nearly (/ 1000000000) 65536 (fst P) (fst q) /\ nearly (/ 1000000000) 65536 (h - snd P) (snd q).
Lemma through_ok h ps qs : is64 h -> 0 <= h <= 65536 -> Forall2 (close_by h) ps qs ->
  good_outline (through qs) /\ small_outline (through qs) /\ Forall2 (seg_rel almost) (through ps) (map (flip h) (through qs)).
Proof.
  intros Ih Bh F.
  assert (NH : nearly 0 65536 h h) by (split; [exact Ih|]; split; [rewrite Rminus_diag_eq, Rabs_R0 by reflexivity; lra|apply Rabs_le; lra]).
  assert (G : forall P q, close_by h P q -> is64 (fst q) /\ is64 (snd q)) by (intros P q (A & B); split; eapply nearly_is64; eassumption).
  assert (S : forall P q, close_by h P q -> Forall small [fst q; snd q]).
  { intros P q (A & B). constructor; [eapply nearly_small; [exact A|lra|lra]|]. constructor; [eapply nearly_small; [exact B|lra|lra]|constructor]. }
  assert (R : forall P q, close_by h P q -> almost (fst P) (fst q) /\ almost (snd P) (rnd64 (h - snd q))).
  { intros P q (A & B). split; [eapply nearly_almost; [exact A|lra]|].
    pose proof (nearly_add _ _ _ _ _ _ _ _ NH (nearly_opp _ _ _ _ B) ltac:(lra) ltac:(lra) ltac:(lra)) as Q. replace (h + - (h - snd P)) with (snd P) in Q by ring.
    apply (nearly_almost _ _ _ _ Q). lra. }
  destruct F as [|P q ps qs H F]; [repeat split; constructor|]. unfold through. cbn [map flip]. split; [|split].
  - constructor; [constructor; [apply (G P q H)|constructor; [apply (G P q H)|constructor]]|]. rewrite Forall_map.
    clear - F G. induction F as [|P q ps qs H F IH]; constructor; [constructor; [apply (G P q H)|constructor; [apply (G P q H)|constructor]]|exact IH].
  - constructor; [apply (S P q H)|]. rewrite Forall_map. clear - F S. induction F as [|P q ps qs H F IH]; constructor; [apply (S P q H)|exact IH].
  - constructor; [constructor; apply (R P q H)|]. clear - F R. induction F as [|P q ps qs H F IH]; cbn [map flip]; constructor; [constructor; apply (R P q H)|exact IH].
Qed.
Lemma closed_ok h o ideal : good_outline o /\ small_outline o /\ Forall2 (seg_rel almost) ideal (map (flip h) o) ->
  good_outline (o ++ [SClose]) /\ small_outline (o ++ [SClose]) /\ Forall2 (seg_rel almost) (ideal ++ [SClose]) (map (flip h) (o ++ [SClose])).
Proof.
  intros (G & S & F). unfold good_outline, small_outline in *. rewrite !Forall_app, map_app. split; [split; [exact G|repeat constructor]|].
  split; [split; [exact S|repeat constructor]|]. apply Forall2_app; [exact F|repeat constructor].
Qed.
(** The bar of the program in binary64. *)
Definition box (x y v b : R) : list (seg R) :=
  let x1 := rnd64 (rnd64 (x + 0) + - radius v) in let x2 := rnd64 (rnd64 (x + 0) + radius v) in
  [SMove x1 b; SLine x1 y; SLine x2 y; SLine x2 b; SClose].
Lemma box_ok x y b X Y B v s h : nearly (/ 1000000000) 65536 X x -> nearly (/ 1000000000) 65536 Y y -> nearly (/ 1000000000) 65536 B b -> is64 h -> 0 <= h <= 65536 ->
  is64 v -> 0 < v <= 65536 -> Rabs (v - s) <= / 1000000000 -> 0 < s <= 65536 ->
  good_outline (box x y v b) /\ small_outline (box x y v b) /\
  Forall2 (seg_rel almost) (bar s (h - B) (X, h - Y)) (map (flip h) (box x y v b)).
Proof.
  intros NX NY NB H BH I Bv A S. destruct (sizes_near v s I Bv A S) as [NR _].
  assert (NH : nearly 0 65536 h h) by (split; [exact H|]; split; [rewrite Rminus_diag_eq, Rabs_R0 by reflexivity; lra|apply Rabs_le; lra]).
  assert (NX0 : nearly (/ 1000000000) 65536 X (rnd64 (x + 0))) by (rewrite Rplus_0_r, rnd64_id by apply NX; exact NX).
  assert (F : forall z Z e b, nearly e b Z z -> 0 <= e <= / 20000000 -> b <= 100000 -> almost (h - Z) (rnd64 (h - z))).
  { intros z Z e b0 N L Lb. pose proof (nearly_add _ _ _ _ _ _ _ _ NH (nearly_opp _ _ _ _ N) ltac:(lra) ltac:(lra) ltac:(lra)) as Q. apply (nearly_almost _ _ _ _ Q). lra. }
  unfold box. set (x0 := rnd64 (x + 0)) in *. split; [|split].
  - unfold good_outline. cbn. repeat (apply Forall_cons; [repeat (apply Forall_cons; [first [apply rnd64_is | apply NX | apply NY | apply NB]|]); apply Forall_nil|]). apply Forall_nil.
  - unfold small_outline. cbn.
    repeat (apply Forall_cons; [repeat (apply Forall_cons; [eapply nearly_small; [near_ok|lra|lra]|]); apply Forall_nil|]). apply Forall_nil.
  - unfold bar. cbn [map flip].
    assert (U : forall z Z e b, nearly e b Z z -> e <= / 10000000 -> almost Z z) by (intros; eapply nearly_almost; eassumption).
    change (X - s / 2) with (X + - (s / 2)).
    repeat (apply Forall2_cons; [constructor; first [eapply F; [near_ok|lra|lra] | eapply U; [near_ok|lra]]|]). apply Forall2_nil.
Qed.
Lemma drawn_stroke sort_cw fuel h o c l ideal w w' : good_outline o -> small_outline o -> Forall2 (seg_rel almost) ideal (map (flip h) o) -> fine_color l c ->
  0 < w <= 65536 -> almost w' w ->
  drawn_as sort_cw fuel h [draw_shape (mk_cmd (map command o) (mk_compound [] [] [] []) (mk_stroke_style (Fin w) (col c) false (Fin 0) []) fill0 None)] [Stroke ideal l 1 w' [] 0 false].
Proof.
  intros G S F (U & A & O) B Aw.
  destruct (C48_draw (mk_shape o [] [] [] [] None) NoFill (Line c w)) as (ss & fs & E).
  { intros c0 w0 Q. injection Q as <- <-. lra. } { discriminate. }
  exists [mk_item (with_style NoFill (Line c w) (mk_shape o [] [] [] [] None)) [] ss fs]. split; [|split; [|split]].
  - cbn [map]. unfold item_cmd. cbn [i_shape i_stroke i_fill]. rewrite <- E. reflexivity.
  - constructor; [|constructor]. split; [|split; constructor]. cbn [i_shape with_style]. split; [exact G|]. cbn [sh_fills sh_hatches sh_strokes sh_dashes app].
    split; [constructor|]. split; [constructor|]. split; [constructor; [exact U|constructor]|constructor].
  - constructor; [|constructor]. unfold small_item. cbn [i_shape with_style i_lines sh_outline sh_strokes sh_dashes app]. split; [exact S|]. split; [constructor|].
    split; [|constructor]. constructor; [|constructor]. cbn [snd]. unfold small. rewrite Rabs_pos_eq; lra.
  - cbn [flat_map i_shape i_lines with_style]. unfold expected. cbn [with_style sh_fills sh_hatches sh_strokes sh_dashes sh_outline sh_aa map app combine fst snd]. rewrite A.
    constructor; [|constructor]. constructor; [exact F|exact O|apply almost_refl|exact Aw|constructor|apply almost_refl].
Qed.
Lemma drawn_shows sort_cw fuel version w h l ps : ~ In "-"%char version -> is64 h -> small w -> small h -> drawn_as sort_cw fuel h l ps ->
  exists t, export_svg rnd64 sort_cw fuel (Fin w) (Fin h) version (mk_color (Fin 1) (Fin 1) (Fin 1) (Fin 1)) l = Ret t /\
    shows_picture t w h (Fill (page_of_size w h) white_ 1 false :: ps).
Proof. intros V H SW SH (items & -> & G & S & F). now apply svg_shows. Qed.
