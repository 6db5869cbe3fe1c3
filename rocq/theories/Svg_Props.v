(** SVG output: escaping (C42), the drawing (C48), numbers (C64). *)
From Verif Require Import Base Num Num_Facts Dec Color_Model Color_Spec Color_Proofs Geo_Model Svg_Model Svg_Spec Svg_Embed Svg_Proofs.
From Coq Require Import Lra.
Local Open Scope R_scope.

(* ==================== C42 ==================== *)

(** Text content: an XML reader gets the text back, whatever it is. *)
Theorem C42_body : forall s, unescape (svg_body s) = Some s.
Proof.
  induction s as [|c s IH]; [reflexivity|]. unfold svg_body in *. cbn [flat_map]. unfold escape_body at 1.
  destruct (Ascii.eqb_spec c "&") as [->|A]; [cbn [s_ list_ascii_of_string app]; cbn [unescape Ascii.eqb]; now rewrite IH|].
  destruct (Ascii.eqb_spec c "<") as [->|B]; [cbn [s_ list_ascii_of_string app]; cbn [unescape Ascii.eqb]; now rewrite IH|].
  destruct (Ascii.eqb_spec c ">") as [->|C]; [cbn [s_ list_ascii_of_string app]; cbn [unescape Ascii.eqb]; now rewrite IH|].
  cbn [app unescape]. apply ascii_eqb_neq in A, B. now rewrite A, B, IH.
Qed.
Print Assumptions C42_body.
Example C42_body_case : svg_body (s_ "a<b & c") = s_ "a&lt;b &amp; c".
Proof. reflexivity. Qed.

(** An attribute, for texts without double quotes, '<' and '&': the reader gets
    name and text, and goes on behind the attribute. *)
Theorem C42_attr_partial : forall n name v r, name <> [] -> forallb name_char name = true ->
  ~ In c_dq v -> ~ In "<"%char v -> ~ In "&"%char v -> (match r with c :: _ => c <> " "%char | [] => True end) ->
  read_attrs (S (S n)) (svg_attr name v ++ r) = Some ([(name, v)], r).
Proof.
  intros n name v r N C D L A SP.
  assert (V : Forall cleanc v).
  { rewrite Forall_forall. intros c I. repeat split; intros ->; contradiction. }
  rewrite attr_plain by exact V. pose proof (read_attrs_ok [(name, v)] (S (S n)) r) as H. cbn [flat_map] in H. rewrite app_nil_r in H.
  apply H; [|reflexivity|exact SP|cbn [length]; lia]. constructor; [now split; [|split]|constructor].
Qed.
Print Assumptions C42_attr_partial.

Lemma unescape_length : forall m u w, (length u <= m)%nat -> unescape u = Some w ->
  (length w <= length u)%nat /\ (In "&"%char u -> (length w < length u)%nat) /\ ~ In "<"%char u.
Proof.
  assert (S1 : forall {A} (f : A -> A) (x y : option A), option_map f x = y -> forall b, y = Some b -> exists a, x = Some a /\ b = f a).
  { intros A f [a|] y E b F; cbn in E; [exists a; split; [reflexivity|congruence]|congruence]. }
  induction m as [|m IH]; intros u w L H.
  - destruct u; [|cbn in L; lia]. cbn in H. injection H as <-. cbn. repeat split; auto; lia.
  - destruct u as [|c u]; [cbn in H; injection H as <-; cbn; repeat split; auto; lia|].
    cbn [unescape] in H. destruct (Ascii.eqb_spec c "<") as [->|NL]; [discriminate|].
    destruct (Ascii.eqb_spec c "&") as [->|NA].
    + assert (G : forall p e r, u = p ++ r -> (1 <= length p)%nat -> ~ In "<"%char p -> option_map (cons e) (unescape r) = Some w ->
        (length w <= length ("&"%char :: u))%nat /\ (In "&"%char ("&"%char :: u) -> (length w < length ("&"%char :: u))%nat) /\ ~ In "<"%char ("&"%char :: u)).
      { intros p e r -> LP NP E. destruct (S1 _ _ _ _ E w eq_refl) as (a & Ra & ->). cbn [length] in L. rewrite app_length in L.
        destruct (IH r a ltac:(lia) Ra) as (X & _ & Y). cbn [length]. rewrite app_length. split; [lia|]. split; [intro; lia|].
        intros [E2|I]; [discriminate|]. apply in_app_or in I as [I|I]; auto. }
      assert (NP : forall p : str, forallb (fun c => negb (Ascii.eqb c "<")) p = true -> ~ In "<"%char p).
      { intros p F I. rewrite forallb_forall in F. specialize (F _ I). now rewrite ascii_eqb_refl in F. }
      repeat match type of H with
      | (match ?x with _ => _ end) = _ => is_var x; destruct x; try discriminate H
      end;
      first [eapply (G (s_ "amp;")); [reflexivity|cbn; lia|now apply NP|eassumption]
            |eapply (G (s_ "lt;")); [reflexivity|cbn; lia|now apply NP|eassumption]
            |eapply (G (s_ "gt;")); [reflexivity|cbn; lia|now apply NP|eassumption]
            |eapply (G (s_ "quot;")); [reflexivity|cbn; lia|now apply NP|eassumption]].
    + destruct (S1 _ _ _ _ H w eq_refl) as (a & Ra & ->). cbn [length] in L. destruct (IH u a ltac:(lia) Ra) as (X & X2 & Y).
      cbn [length]. split; [lia|]. split.
      * intros [E|I]; [congruence|]. specialize (X2 I). lia.
      * intros [E|I]; [congruence|contradiction].
Qed.

(** With any of the three, the reader never gets the text back: svg_attr writes a
    backslash before a double quote, which ends the value nevertheless, and leaves '<' and '&' as they are. *)
Theorem C42_attr_refuted : forall n name v r l r', name <> [] -> forallb name_char name = true ->
  In c_dq v \/ In "<"%char v \/ In "&"%char v ->
  read_attrs n (svg_attr name v ++ r) = Some (l, r') -> hd_error l <> Some (name, v).
Proof.
  intros n name v r l r' N C B H E. destruct n as [|n]; [discriminate|].
  assert (T : svg_attr name v ++ r = " "%char :: (name ++ "="%char :: c_dq :: (flat_map escape_quote v ++ c_dq :: r))).
  { unfold svg_attr. rewrite <- !app_assoc. reflexivity. }
  rewrite T in H. cbn [read_attrs] in H. rewrite ascii_eqb_refl in H. rewrite span_app in H by (exact C || reflexivity).
  destruct name as [|x name]; [congruence|]. change (Ascii.eqb "=" "=" && Ascii.eqb c_dq """")%bool with true in H. cbv iota in H.
  change """"%char with c_dq in H.
  destruct (until c_dq (flat_map escape_quote v ++ c_dq :: r)) as [[u r2]|] eqn:U; [|discriminate].
  destruct (unescape u) as [w|] eqn:W; [|discriminate]. destruct (read_attrs n r2) as [[l2 r3]|]; [|discriminate].
  destruct (existsb _ l2); [discriminate|]. injection H as <- <-. cbn [hd_error] in E. injection E as E. subst w.
  destruct (unescape_length (length u) u v (le_n _) W) as (L1 & L2 & L3).
  destruct (In_dec ascii_dec c_dq v) as [D|D].
  - assert (G : forall v u r2, In c_dq v -> until c_dq (flat_map escape_quote v ++ c_dq :: r) = Some (u, r2) ->
      (length u <= length v)%nat /\ exists p, u = p ++ [c_bs]).
    { clear. induction v as [|c v IH]; intros u r2 I U; [contradiction|]. cbn [flat_map] in U. unfold escape_quote at 1 in U.
      destruct (Ascii.eqb_spec c c_dq) as [->|NC].
      - cbn [app until] in U. change (Ascii.eqb c_bs c_dq) with false in U. cbv iota in U. rewrite ascii_eqb_refl in U.
        injection U as <- <-. cbn [length]. split; [lia|now exists []].
      - destruct I as [I|I]; [congruence|]. cbn [app until] in U. apply ascii_eqb_neq in NC. rewrite NC in U.
        destruct (until c_dq (flat_map escape_quote v ++ c_dq :: r)) as [[u0 r0]|]; [|discriminate].
        injection U as <- <-. destruct (IH u0 r0 I eq_refl) as (X & p & ->). cbn [length]. split; [lia|now exists (c :: p)]. }
    assert (NQ : forall s u r2, until c_dq s = Some (u, r2) -> ~ In c_dq u).
    { clear. induction s as [|c s IH]; intros u r2 U; [discriminate|]. cbn [until] in U.
      destruct (Ascii.eqb_spec c c_dq) as [->|NC]; [injection U as <- <-; auto|].
      destruct (until c_dq s) as [[u0 r0]|]; [|discriminate]. injection U as <- <-.
      intros [I|I]; [congruence|]. exact (IH u0 r0 eq_refl I). }
    destruct (G v u r2 D U) as (X & p & ->). specialize (NQ _ _ _ U).
    destruct (In_dec ascii_dec "&"%char (p ++ [c_bs])) as [A|A]; [specialize (L2 A); lia|].
    assert (Forall cleanc (p ++ [c_bs])) as CL.
    { rewrite Forall_forall. intros c I. repeat split; intros ->; contradiction. }
    rewrite (unescape_clean _ CL) in W. injection W as <-. contradiction.
  - assert (F : flat_map escape_quote v = v).
    { clear - D. induction v as [|c v IH]; [reflexivity|]. cbn [flat_map]. rewrite IH by (intro; apply D; now right).
      unfold escape_quote. destruct (Ascii.eqb_spec c c_dq) as [->|]; [exfalso; apply D; now left|reflexivity]. }
    rewrite F, until_app in U by exact D. injection U as <- <-. destruct B as [B|[B|B]]; [contradiction|contradiction|].
    specialize (L2 B). lia.
Qed.
Print Assumptions C42_attr_refuted.
Example C42_attr_case : svg_attr (s_ "font-family") (s_ "a""b") = s_ " font-family=""a\""b""".
Proof. reflexivity. Qed.

(* ==================== C64 ==================== *)

(** A number is written as a decimal within 0.0005 of it; whole numbers exactly. *)
Theorem C64_number : forall x t, svg_number (Fin x) = Ret t -> exists q, read_decimal t = Some q /\ close x q.
Proof. intros x t H. destruct (svg_number_ok x t H) as (q & Q & C & _). now exists q. Qed.
Print Assumptions C64_number.

(** ... for all numbers in the range of int, *)
Theorem C64_defined : forall x, Rabs x < 2147483648 -> exists t, svg_number (Fin x) = Ret t.
Proof.
  intros x H. unfold svg_number. destruct (Req_EM_T x (IZR (Ztrunc x))) as [E|E]; [|eexists; reflexivity].
  cbn [to_int]. cbv zeta. replace ((- 2 ^ 31 <=? Ztrunc x) && (Ztrunc x <? 2 ^ 31))%Z with true; [eexists; reflexivity|].
  symmetry. apply Rabs_def2 in H. apply andb_true_intro. split; [apply Z.leb_le|apply Z.ltb_lt].
  - apply le_IZR. rewrite <- E. change (- 2 ^ 31)%Z with (-2147483648)%Z. lra.
  - apply lt_IZR. rewrite <- E. change (2 ^ 31)%Z with 2147483648%Z. lra.
Qed.
Print Assumptions C64_defined.
(** ... but a whole number from 2^31 on (or an infinity) is converted to int all the same,
    which is undefined; NaN is written as nan, which is no number. *)
Theorem C64_range_refuted : (forall z, (2 ^ 31 <= z \/ z < - 2 ^ 31)%Z -> svg_number (Fin (IZR z)) = UB) /\
  svg_number PInf = UB /\ svg_number NInf = UB /\
  exists t, svg_number NaN = Ret t /\ read_decimal t = None.
Proof.
  split; [|split; [reflexivity|split; [reflexivity|]]].
  - intros z H. unfold svg_number. rewrite Ztrunc_IZR. destruct (Req_EM_T (IZR z) (IZR z)); [|congruence].
    cbn [to_int]. cbv zeta. rewrite Ztrunc_IZR.
    replace ((- 2 ^ 31 <=? z) && (z <? 2 ^ 31))%Z with false; [reflexivity|]. symmetry. apply andb_false_iff.
    destruct H; [right; apply Z.ltb_ge; lia|left; apply Z.leb_gt; lia].
  - exists (s_ "nan"). split; reflexivity.
Qed.
Print Assumptions C64_range_refuted.

(** A path is written so that a reader gets its commands, in order, every coordinate within
    0.0005. *)
Theorem C64_path : forall o t, svg_path_data (map command o) = Ret t ->
  exists q, read_outline t = Some q /\ Forall2 (seg_rel close) o q.
Proof. intros o t H. destruct (outline_ok o t H) as (q & Q & F & _). now exists q. Qed.
Print Assumptions C64_path.
Lemma number_whole z : (Z.abs z < 2 ^ 31)%Z -> svg_number (Fin (IZR z)) = Ret (dec_int z).
Proof.
  intro H. unfold svg_number. rewrite Ztrunc_IZR. destruct (Req_EM_T (IZR z) (IZR z)); [|congruence].
  cbn [to_int]. cbv zeta. rewrite Ztrunc_IZR. replace ((- 2 ^ 31 <=? z) && (z <? 2 ^ 31))%Z with true; [reflexivity|].
  symmetry. apply andb_true_intro. split; [apply Z.leb_le|apply Z.ltb_lt]; lia.
Qed.
Example C64_path_case : svg_path_data (map command [SMove 10 (-20); SLine 7 0; SClose]) = Ret (s_ "M10 -20 L7 0 Z").
Proof.
  cbn [map command svg_path_data svg_command flat_map app numbers P2 vx vy].
  rewrite !number_whole by lia. reflexivity.
Qed.
(** svg_poly_data writes no separator between vertices: different outlines, the same text. *)
Theorem C64_poly_refuted : exists t, svg_poly_data [P2 0 12; P2 34 5] = Ret t /\ svg_poly_data [P2 0 1; P2 234 5] = Ret t.
Proof. exists (s_ "0 1234 5"). cbn [svg_poly_data P2 vx vy]. rewrite !number_whole by lia. split; reflexivity. Qed.
Print Assumptions C64_poly_refuted.

(* ==================== C48 ==================== *)

(** The document can be read back: it has the size of the layer, and paints the background,
    then the shapes of the draw list in order, each with its fills, its hatchings, its strokes
    and its dashed strokes in this order; colours to 8 bits, numbers to a thousandth, y counted
    from the top. *)
Theorem C48_document : forall sort_cw fuel version w h background l t,
  ~ In "-"%char version -> is64 h -> unit_interval background -> Forall (good_item sort_cw fuel) l ->
  export_svg rnd64 sort_cw fuel (Fin w) (Fin h) version (col background) (map item_cmd l) = Ret t ->
  exists qw qh ps, read_svg t = Some (qw, qh, ps) /\ close w qw /\ close h qh /\
    Forall2 (paint_rel close shown)
      (Fill (rect w h) background (q_a background) false ::
       flat_map (fun i => expected h (i_shape i) (i_lines i)) l) ps.
Proof.
  intros sort_cw fuel version w h bg l t V H U G E. unfold export_svg in E. outs E. apply Ret_inj in E. subst t.
  rename E0 into B, E1 into W, E2 into HH, E3 into C, E4 into O.
  destruct (attr_num_ok _ _ _ W) as (wv & wq & -> & WQ & WC & WCl). destruct (attr_num_ok _ _ _ HH) as (hv & hq & -> & HQ & HC & HCl).
  cbn [col c_a] in O. destruct (attr_num_ok _ _ _ O) as (ov & oq & -> & OQ & OC & OCl).
  destruct (color_ok bg U) as (ct & lv & T & RC & SH & CL & NN). rewrite T in C. apply Ret_inj in C. subst x2.
  assert (BW : all_written x (flat_map (fun i => expected h (i_shape i) (i_lines i)) l)).
  { eapply each_written; [|exact B]. intros i u I E2. rewrite Forall_forall in G. destruct (G i I) as (G1 & G2 & G3).
    unfold item_cmd in E2. eapply add_path_ok; eassumption. }
  destruct BW as (es & qs & -> & OK & AP & FP).
  set (r := (s_ "rect", [(s_ "width", wv); (s_ "height", hv); (s_ "fill", ct); (s_ "fill-opacity", ov)])).
  assert (RO : ok_elem r).
  { split; [reflexivity|]. split; [discriminate|]. split; [|vm_compute; reflexivity]. cbn [r snd].
    do 4 (constructor; [split; [discriminate|split; [reflexivity|assumption]]|]). constructor. }
  assert (RP : paints r = Some [Fill [SMove zero zero; SLine wq zero; SLine wq hq; SLine zero hq; SClose] lv oq false]).
  { unfold r, paints. cbn [fst snd]. assert (forallb (fun a : str * str => existsb (str_eqb (fst a)) known)
        [(s_ "width", wv); (s_ "height", hv); (s_ "fill", ct); (s_ "fill-opacity", ov)] = true) as ->.
    { cbn [forallb fst]. vm_compute. reflexivity. }
    unfold outline, attr. cbn [fst snd]. names. repeat (rewrite get_cons; names). rewrite !get_nil.
    rewrite WQ, HQ, OQ, (read_paint_color _ _ RC NN). reflexivity. }
  exists wq, hq, (Fill [SMove zero zero; SLine wq zero; SLine wq hq; SLine zero hq; SClose] lv oq false :: qs).
  split; [|split; [exact WC|split; [exact HC|]]].
  - assert (D : s_ "<?xml version=""1.0"" encoding=""UTF-8"" ?>" ++ [c_nl] ++
         s_ "<!-- Generated by clip v" ++ version ++ s_ " (clip-lang.org) -->" ++ [c_nl] ++
         s_ "<svg" ++ svg_attr (s_ "xmlns") (s_ "http://www.w3.org/2000/svg") ++ attr_text (s_ "width", wv) ++ attr_text (s_ "height", hv) ++ s_ ">" ++ [c_nl] ++
         s_ "  <rect" ++ attr_text (s_ "width", wv) ++ attr_text (s_ "height", hv) ++ svg_attr (s_ "fill") ct ++ attr_text (s_ "fill-opacity", ov) ++ s_ "/>" ++ [c_nl] ++
         flat_map elem_text es ++ s_ "</svg>" ++ [c_nl] = document version wv hv (r :: es)).
    { unfold document. do 6 f_equal. rewrite !attr_plain by (exact CL || (apply clean_const; reflexivity)).
      cbn [flat_map]. unfold elem_text at 2, r. cbn [fst snd flat_map]. rewrite ?app_nil_r, <- ?app_assoc. reflexivity. }
    match goal with |- read_svg ?x = _ => replace x with (document version wv hv (r :: es)) by (symmetry; exact D) end.
    unfold read_svg. rewrite read_document; [|assumption|assumption|assumption|now constructor].
    unfold attr. repeat (rewrite get_cons; names). rewrite WQ, HQ. cbn [all_paints]. rewrite RP, AP. names. reflexivity.
  - constructor; [|exact FP]. apply rel_fill; [|exact SH|exact OC].
    unfold rect. repeat first [assumption | apply close_zero | apply Forall2_nil | apply Forall2_cons | apply rel_move | apply rel_line | apply rel_close].
Qed.
Print Assumptions C48_document.

(** ... and it is written for all drawings whose numbers are below 2^29. *)
Lemma numbers_total l : Forall (fun x => Rabs x < 2147483648) l -> exists t, numbers (map Fin l) = Ret t.
Proof.
  induction l as [|x l IH]; intro F; [now exists []|]. inversion F; subst. destruct (C64_defined x) as [a A]; [assumption|].
  destruct l as [|y l]; [exists a; exact A|]. destruct IH as [b B]; [assumption|].
  exists (a ++ s_ " " ++ b). change (numbers (map Fin (x :: y :: l))) with
    (let* t := svg_number (Fin x) in let* u := numbers (map Fin (y :: l)) in Ret (t ++ s_ " " ++ u)). now rewrite A, B.
Qed.
Lemma command_total s : Forall (fun x => Rabs x < 2147483648) (coords s) -> exists t, svg_command (command s) = Ret t.
Proof.
  intro F. destruct (numbers_total _ F) as [t T]. destruct s as [x y|x y|a b x y|a b c e x y|];
    cbn [coords] in T; cbn [command svg_command flat_map app P2 vx vy]; cbn [map] in T; rewrite ?T; eexists; reflexivity.
Qed.
Lemma path_total o : Forall (fun s => Forall (fun x => Rabs x < 2147483648) (coords s)) o -> exists t, svg_path_data (map command o) = Ret t.
Proof.
  induction o as [|s o IH]; intro F; [now exists []|]. inversion F; subst. destruct (command_total s) as [a A]; [assumption|].
  destruct o as [|y l]; [exists a; exact A|]. destruct IH as [b B]; [assumption|].
  exists (a ++ s_ " " ++ b). change (svg_path_data (map command (s :: y :: l))) with
    (let* t := svg_command (command s) in let* u := svg_path_data (map command (y :: l)) in Ret (t ++ s_ " " ++ u)). now rewrite A, B.
Qed.
Lemma small_flip h y : small h -> small y -> Rabs (rnd64 (h - y)) < 2147483648.
Proof.
  unfold small. intros H Y. apply Rabs_le_inv in H. apply Rabs_le_inv in Y.
  assert (I : is64 1073741824).
  { unfold is64. apply generic_format_FLT. exists (Float radix2 1073741824 0); [unfold F2R; cbn; lra|cbn; lia|cbn; lia]. }
  assert (Rabs (rnd64 (h - y)) <= 1073741824); [|lra]. unfold rnd64. apply abs_round_le_generic; auto with typeclass_instances.
  apply Rabs_le. lra.
Qed.
Lemma small_lt x : small x -> Rabs x < 2147483648.
Proof. unfold small. lra. Qed.
Lemma path_attr_total h o : is64 h -> small h -> good_outline o -> small_outline o -> exists t, path_attr rnd64 (Fin h) (map command o) = Ret t.
Proof.
  intros H SH G SO. unfold path_attr. rewrite flipped by assumption.
  destruct (path_total (map (flip h) o)) as [t T]; [|rewrite T; eexists; reflexivity].
  rewrite Forall_map. eapply Forall_impl; [|exact SO]. intros s F.
  destruct s; cbn [coords flip] in *; repeat match goal with K : Forall _ (_ :: _) |- _ => inversion K; subst; clear K end;
    repeat constructor; auto using small_lt, small_flip.
Qed.
Lemma opacity_total n c : unit_interval c -> exists t, opacity_attr n (col c) = Ret t.
Proof.
  intros (_ & _ & _ & A). unfold opacity_attr. cbn [col c_a]. destruct (xeq _ _); [eexists; reflexivity|].
  unfold svg_attr_num. destruct (C64_defined (q_a c)) as [t T]; [apply Rabs_def1; lra|]. rewrite T. eexists; reflexivity.
Qed.
Lemma fill_total c : unit_interval c -> exists t, fill_attrs rnd64 (col c) = Ret t.
Proof.
  intro U. unfold fill_attrs. destruct (color_ok c U) as (h & lv & T & _). rewrite T. cbn [bind].
  destruct (opacity_total (s_ "fill-opacity") c U) as [o O]. rewrite O. eexists; reflexivity.
Qed.
Lemma num_total n x : small x -> exists t, svg_attr_num n (Fin x) = Ret t.
Proof. intro H. unfold svg_attr_num. destruct (C64_defined x (small_lt x H)) as [t T]. rewrite T. eexists; reflexivity. Qed.
Lemma stroke_total c w : unit_interval c -> small w -> exists t, stroke_attrs rnd64 (col c) (Fin w) = Ret t.
Proof.
  intros U W. unfold stroke_attrs. destruct (color_ok c U) as (h & lv & T & _). rewrite T. cbn [bind].
  destruct (opacity_total (s_ "stroke-opacity") c U) as [o O]. rewrite O. cbn [bind].
  destruct (num_total (s_ "stroke-width") w W) as [k K]. rewrite K. eexists; reflexivity.
Qed.
Lemma each_total {A} (f : A -> outcome str) l : (forall a, In a l -> exists t, f a = Ret t) -> exists t, each f l = Ret t.
Proof.
  induction l as [|a l IH]; intro H; [now exists []|]. destruct (H a (or_introl eq_refl)) as [x X].
  destruct IH as [y Y]; [intros; apply H; now right|]. exists (x ++ y). cbn [each]. now rewrite X, Y.
Qed.
Theorem C48_written : forall sort_cw fuel version w h background l,
  is64 h -> small w -> small h -> unit_interval background -> Forall (good_item sort_cw fuel) l -> Forall small_item l ->
  exists t, export_svg rnd64 sort_cw fuel (Fin w) (Fin h) version (col background) (map item_cmd l) = Ret t.
Proof.
  intros sort_cw fuel version w h bg l H W SH U G S.
  assert (A : exists t, each (add_path rnd64 sort_cw fuel (Fin h)) (map item_cmd l) = Ret t).
  { apply each_total. intros c I. apply in_map_iff in I as (i & <- & I). rewrite Forall_forall in G, S.
    destruct (G i I) as ((GO & UF & UH & US & UD) & GH & GL). destruct (S i I) as (SO & SL & SS & SD). clear G S I.
    destruct i as [[o fl ht st ds aa] ls iss ifs]. cbn [i_shape i_lines sh_outline sh_fills sh_hatches sh_strokes sh_dashes sh_aa] in *.
    unfold item_cmd, command_of, add_path, compound_of.
    cbn [i_shape i_stroke i_fill dc_path dc_style dc_aa fills hatches strokes dashes sh_outline sh_fills sh_hatches sh_strokes sh_dashes sh_aa].
    destruct (path_attr_total h o H SH GO SO) as [pa PA]. rewrite Forall_forall in UF, US, UD, SS, SD.
    assert (T1 : exists t, each (add_fill rnd64 (Fin h) (map command o) aa) (map col fl) = Ret t).
    { apply each_total. intros c I. apply in_map_iff in I as (q & <- & I). unfold add_fill. rewrite PA. cbn [bind].
      destruct (fill_total q (UF q I)) as [t T]. rewrite T. eexists; reflexivity. }
    assert (T2 : exists t, each (add_hatch rnd64 sort_cw fuel (Fin h) (map command o) aa)
       (map (fun h => mk_hatch (col (h_color h)) (Fin (h_angle h)) (Fin (h_offset h)) (Fin (h_stride h)) (Fin (h_width h))) ht) = Ret t).
    { clear - GH GL SL UH H SH. unfold hatched in GH. cbn [sh_outline] in GH. induction GH as [|x y ht2 ls2 HX GH IH]; [now exists []|].
      inversion GL; subst. inversion SL; subst. inversion UH; subst. destruct IH as [b B]; try assumption.
      cbn [map each]. unfold add_hatch at 1. cbn [fh_color fh_angle fh_offset fh_stride fh_width].
      rewrite HX. cbn [bind]. destruct (path_attr_total h y H SH) as [pa PA]; try assumption. rewrite PA. cbn [bind].
      destruct (fill_total (h_color x)) as [t T]; [cbv beta in *; assumption|]. rewrite T. cbn [bind]. rewrite B. eexists; reflexivity. }
    assert (T3 : exists t, each (add_stroke rnd64 (Fin h) (map command o) aa) (map (fun p => mk_stroke (col (fst p)) (Fin (snd p))) st) = Ret t).
    { apply each_total. intros c I. apply in_map_iff in I as (q & <- & I). unfold add_stroke. rewrite PA. cbn [bind ss_color ss_width].
      destruct (stroke_total (fst q) (snd q) (US q I) (SS q I)) as [t T]. rewrite T. eexists; reflexivity. }
    assert (T4 : exists t, each (add_dash rnd64 (Fin h) (map command o) aa)
       (map (fun l => mk_dash (col (l_color l)) (Fin (l_width l)) (map Fin (l_pattern l)) (Fin (l_offset l))) ds) = Ret t).
    { apply each_total. intros c I. apply in_map_iff in I as (q & <- & I). unfold add_dash. cbn [sd_color sd_width sd_pattern sd_offset].
      destruct (SD q I) as (S1 & S2 & S3). destruct (numbers_total (l_pattern q)) as [n N].
      { eapply Forall_impl; [|exact S2]. exact small_lt. }
      rewrite N, PA. cbn [bind]. destruct (stroke_total (l_color q) (l_width q) (UD q I) S1) as [t T]. rewrite T. cbn [bind].
      destruct (num_total (s_ "stroke-dashoffset") (l_offset q) S3) as [k K]. rewrite K. eexists; reflexivity. }
    destruct T1 as [t1 T1], T2 as [t2 T2], T3 as [t3 T3], T4 as [t4 T4].
    assert (GEN : exists t, (let* a := each (add_fill rnd64 (Fin h) (map command o) aa) (map col fl) in
        let* b := each (add_hatch rnd64 sort_cw fuel (Fin h) (map command o) aa)
       (map (fun h => mk_hatch (col (h_color h)) (Fin (h_angle h)) (Fin (h_offset h)) (Fin (h_stride h)) (Fin (h_width h))) ht) in
        let* e := each (add_stroke rnd64 (Fin h) (map command o) aa) (map (fun p => mk_stroke (col (fst p)) (Fin (snd p))) st) in
        let* g := each (add_dash rnd64 (Fin h) (map command o) aa)
       (map (fun l => mk_dash (col (l_color l)) (Fin (l_width l)) (map Fin (l_pattern l)) (Fin (l_offset l))) ds) in
        Ret (a ++ b ++ e ++ g)) = Ret t).
    { rewrite T1, T2, T3, T4. eexists; reflexivity. }
    destruct fl as [|f [|f2 fl]]; try exact GEN. destruct ht as [|x ht]; try exact GEN.
    destruct st as [|s [|s2 st]]; try exact GEN. destruct ds as [|dd ds]; try exact GEN. clear GEN.
    cbn [map]. unfold add_compound. rewrite PA. cbn [bind ss_color ss_width].
    destruct (fill_total f (UF f (or_introl eq_refl))) as [a A]. rewrite A. cbn [bind].
    destruct (stroke_total (fst s) (snd s) (US s (or_introl eq_refl)) (SS s (or_introl eq_refl))) as [b B]. rewrite B. eexists; reflexivity. }
  destruct A as [t A]. unfold export_svg. rewrite A. cbn [bind].
  destruct (num_total (s_ "width") w W) as [a B]. rewrite B. cbn [bind]. destruct (num_total (s_ "height") h SH) as [b C]. rewrite C. cbn [bind].
  destruct (color_ok bg U) as (ct & lv & T & _). rewrite T. cbn [bind col c_a].
  destruct (num_total (s_ "fill-opacity") (q_a bg)) as [o O]; [destruct U as (_ & _ & _ & U); unfold small; apply Rabs_le; lra|].
  rewrite O. eexists; reflexivity.
Qed.
Print Assumptions C48_written.

(** Drawing a shape adds its fill behind the fills it has already, and its line behind the
    lines; a line of width 0 is not drawn. *)
Theorem C48_draw : forall s f e, (forall c w, e = Line c w -> w <> 0) -> (forall l, e = Dashed l -> l_width l <> 0) ->
  exists ss fs, draw_shape (command_of s (stroke_style_of e) (fill_style_of f)) = command_of (with_style f e s) ss fs.
Proof.
  intros s f e L D. unfold draw_shape, command_of, with_style, compound_of. cbn [dc_style dc_fill dc_stroke dc_path dc_aa].
  destruct s as [o fl ht st ds aa]. cbn [sh_outline sh_fills sh_hatches sh_strokes sh_dashes sh_aa].
  destruct f as [|c|hh]; cbn [fill_style_of f_color fill0 f_hatch f_angle f_offset f_stride f_width fills hatches strokes dashes];
    (destruct e as [|c2 w|l]; cbn [stroke_style_of s_width stroke0 s_dashed s_color s_offset s_pattern];
     [ cbn [xeq]; destruct (Req_EM_T 0 0); [|congruence]
     | cbn [xeq]; destruct (Req_EM_T w 0) as [Z|_]; [now specialize (L c2 w eq_refl)|]
     | cbn [xeq]; destruct (Req_EM_T (l_width l) 0) as [Z|_]; [now specialize (D l eq_refl)|] ]);
    do 2 eexists; rewrite ?map_app, ?app_nil_r; cbn [map]; try reflexivity.
Qed.
Print Assumptions C48_draw.
Theorem C48_no_line : forall s f e, line_width e = 0 ->
  exists ss fs, draw_shape (command_of s (stroke_style_of e) (fill_style_of f)) = command_of (with_style f NoLine s) ss fs.
Proof.
  intros s f e L. unfold draw_shape, command_of, with_style, compound_of. cbn [dc_style dc_fill dc_stroke dc_path dc_aa].
  destruct s as [o fl ht st ds aa]. cbn [sh_outline sh_fills sh_hatches sh_strokes sh_dashes sh_aa].
  destruct f as [|c|hh]; cbn [fill_style_of f_color fill0 f_hatch f_angle f_offset f_stride f_width fills hatches strokes dashes];
    (destruct e as [|c2 w|l]; cbn [line_width] in L; cbn [stroke_style_of s_width stroke0 s_dashed s_color s_offset s_pattern];
     cbn [xeq]; rewrite ?L; (destruct (Req_EM_T 0 0); [|congruence]));
    do 2 eexists; rewrite ?map_app, ?app_nil_r; cbn [map]; try reflexivity.
Qed.
Print Assumptions C48_no_line.

(** The hypotheses are met: a red triangle with a blue outline on white. *)
Definition white : rgba := mk_rgba 1 1 1 1.
Definition triangle : shape :=
  mk_shape [SMove 10 10; SLine 20 10; SLine 15 30; SClose] [mk_rgba 1 0 0 1] [] [(mk_rgba 0 0 1 1, 2)] [] (Some false).
Lemma is64_int z : (Z.abs z < 2 ^ 53)%Z -> is64 (IZR z).
Proof.
  intro H. unfold is64. apply generic_format_FLT. exists (Float radix2 z 0); [unfold F2R; cbn; lra|exact H|cbn; lia].
Qed.
Example C48_case : exists t qw qh ps,
  export_svg rnd64 (fun l => l) 0 (Fin 100) (Fin 50) (s_ "0.6") (col white) [item_cmd (mk_item triangle [] stroke0 fill0)] = Ret t /\
  read_svg t = Some (qw, qh, ps) /\
  Forall2 (paint_rel close shown)
    [Fill (rect 100 50) white 1 false;
     Fill [SMove 10 (rnd64 (50 - 10)); SLine 20 (rnd64 (50 - 10)); SLine 15 (rnd64 (50 - 30)); SClose] (mk_rgba 1 0 0 1) 1 true;
     Stroke [SMove 10 (rnd64 (50 - 10)); SLine 20 (rnd64 (50 - 10)); SLine 15 (rnd64 (50 - 30)); SClose] (mk_rgba 0 0 1 1) 1 2 [] 0 true] ps.
Proof.
  assert (G : Forall (good_item (fun l => l) 0) [mk_item triangle [] stroke0 fill0]).
  { constructor; [|constructor]. unfold good_item, good_shape, good_outline, triangle. cbn.
    repeat split; repeat constructor; cbn; try lra; apply is64_int; lia. }
  assert (U : unit_interval white) by (unfold white, unit_interval; cbn; lra).
  assert (S : forall z, (Z.abs z < 1000)%Z -> small (IZR z)).
  { intros z H. unfold small. rewrite <- abs_IZR. apply Rlt_le, IZR_lt. lia. }
  destruct (C48_written (fun l => l) 0 (s_ "0.6") 100 50 white [mk_item triangle [] stroke0 fill0]) as [t T];
    try assumption; try (apply S; lia); try (apply is64_int; lia).
  { constructor; [|constructor]. unfold small_item, small_outline, triangle. cbn.
    repeat split; repeat (apply Forall_cons || apply Forall_nil); try (apply S; lia). }
  destruct (C48_document (fun l => l) 0 (s_ "0.6") 100 50 white [mk_item triangle [] stroke0 fill0] t) as (qw & qh & ps & Q & _ & _ & F);
    try assumption; try (apply is64_int; lia).
  { vm_compute. intuition discriminate. }
  exists t, qw, qh, ps. split; [exact T|]. split; [exact Q|]. exact F.
Qed.

(** A colour with a channel of 17 or more (they are not limited) gives a text that is not a
    colour: every channel is written with as many digits as it takes. *)
Theorem C48_color_refuted : exists t, to_hex_str rnd64 3 (col (mk_rgba 17 0 0 1)) = Ret t /\ read_color t = None.
Proof.
  assert (T : forall x z, rnd64 (x * 255) = IZR z -> (0 <= z < 2 ^ 31)%Z -> to_int (xmul rnd64 (Fin x) (Fin 255)) = Ret z).
  { intros x z E B. cbn [xmul to_int]. cbv zeta. rewrite E, Ztrunc_IZR.
    replace ((- 2 ^ 31 <=? z) && (z <? 2 ^ 31))%Z with true; [reflexivity|]. symmetry. apply andb_true_intro. split; [apply Z.leb_le|apply Z.ltb_lt]; lia. }
  eexists. split.
  - unfold to_hex_str. change (4 <? 3)%nat with false. cbv iota. cbn [firstn hex_channels col c_r c_g c_b q_r q_g q_b].
    rewrite (T 17 4335%Z), (T 0 0%Z); [cbn [bind]; reflexivity| | lia| |lia].
    + rewrite Rmult_0_l. apply rnd64_0.
    + replace (17 * 255) with (IZR 4335) by lra. apply rnd64_id, is64_int. lia.
  - reflexivity.
Qed.
Print Assumptions C48_color_refuted.
