(** Theorems about pixel images: C49. *)
From Coq Require Import Lra Reals.
From Verif Require Import Base Num Num_Facts Color_Model Image_Model.
Local Open Scope nat_scope.

(** An image with a pixel map of the right size. *)
Definition well_sized (img : image) : Prop := length (i_data img) = i_width img * i_height img * pixel_size (i_format img).

Lemma index_in w h x y : x < w -> y < h -> y * w + x < w * h.
Proof. intros X Y. nia. Qed.
Lemma index_inj w x y x' y' : x < w -> x' < w -> y * w + x = y' * w + x' -> x = x' /\ y = y'.
Proof.
  intros X X' E. assert (M : (y * w + x) mod w = (y' * w + x') mod w) by congruence.
  rewrite !(Nat.add_comm (_ * w)), !Nat.mod_add, !Nat.mod_small in M by lia. subst. split; [reflexivity|]. nia.
Qed.
Lemma put_same img idx px : well_sized img -> idx < i_width img * i_height img -> length px = pixel_size (i_format img) ->
  well_sized (put_bytes img idx px) /\ pixel_bytes (put_bytes img idx px) idx = px.
Proof.
  unfold well_sized, put_bytes, pixel_bytes. cbn [i_data i_width i_height i_format]. intros W I L. set (s := pixel_size (i_format img)) in *.
  assert (B : idx * s + s <= length (i_data img)) by (rewrite W; nia).
  split.
  - rewrite !app_length, firstn_length, skipn_length, L. lia.
  - rewrite skipn_app, firstn_length, Nat.min_l by lia. rewrite skipn_all2 by (rewrite firstn_length; lia). cbn [app].
    rewrite Nat.sub_diag. cbn [skipn]. rewrite firstn_app, <- L, Nat.sub_diag, firstn_all. cbn [firstn]. apply app_nil_r.
Qed.
Lemma put_other img idx px j : well_sized img -> idx < i_width img * i_height img -> length px = pixel_size (i_format img) ->
  j <> idx -> j < i_width img * i_height img -> pixel_bytes (put_bytes img idx px) j = pixel_bytes img j.
Proof.
  unfold well_sized, put_bytes, pixel_bytes. cbn [i_data i_width i_height i_format]. intros W I L N J. set (s := pixel_size (i_format img)) in *.
  assert (B : idx * s + s <= length (i_data img)) by (rewrite W; nia). assert (BJ : j * s + s <= length (i_data img)) by (rewrite W; nia).
  destruct (Nat.lt_ge_cases j idx) as [C|C].
  - assert (j * s + s <= idx * s) by nia. rewrite skipn_app, firstn_app.
    rewrite skipn_length, firstn_length, Nat.min_l by lia. replace (s - (idx * s - j * s)) with 0 by lia. cbn [firstn]. rewrite app_nil_r.
    rewrite skipn_firstn_comm, firstn_firstn, Nat.min_l by lia. reflexivity.
  - assert (idx * s + s <= j * s) by nia. rewrite skipn_app, skipn_all2 by (rewrite firstn_length; lia). cbn [app].
    rewrite firstn_length, Nat.min_l by lia. rewrite skipn_app, skipn_all2 by (rewrite L; lia). cbn [app]. rewrite L.
    f_equal. assert (SA : forall a b (l : list Z), skipn a (skipn b l) = skipn (b + a) l).
    { clear. intros a b. induction b as [|b IH]; intro l; [reflexivity|]. destruct l as [|z l]; [now rewrite !skipn_nil|]. cbn [skipn Nat.add]. apply IH. }
    rewrite SA. f_equal. lia.
Qed.
Lemma bytes_length img j : well_sized img -> j < i_width img * i_height img -> length (pixel_bytes img j) = pixel_size (i_format img).
Proof. unfold well_sized, pixel_bytes. intros W J. rewrite firstn_length, skipn_length, W. nia. Qed.
Lemma encode_length d fmt c old px : length old = pixel_size fmt -> encode d fmt c old = Ret px -> length px = pixel_size fmt.
Proof.
  destruct fmt; cbn [encode pixel_size]; [intros L E; injection E as <-; exact L|]. intros _.
  destruct (to_char (xmul d (c_r c) (Fin 255))); try discriminate. destruct (to_char (xmul d (c_g c) (Fin 255))); try discriminate.
  destruct (to_char (xmul d (c_b c) (Fin 255))); try discriminate. destruct (to_char (xmul d (c_a c) (Fin 255))); try discriminate.
  cbn [bind]. intro E. injection E as <-. reflexivity.
Qed.

(* ------------------------------------------------------------------ C49 *)
(** C49. Writing a pixel changes no other pixel (whatever the format and the arithmetic). *)
Theorem C49_others : forall (d f : R -> R) (img img' : image) (x y x' y' : nat) (c : color),
  well_sized img -> x < i_width img -> y < i_height img -> x' < i_width img -> y' < i_height img ->
  set_pixel d img x y c = Ret img' -> (x', y') <> (x, y) -> get_pixel f img' x' y' = get_pixel f img x' y'.
Proof.
  intros d f img img' x y x' y' c W X Y X' Y' E N. unfold set_pixel, set_index in E. pose proof (index_in _ _ _ _ X Y) as I. pose proof (index_in _ _ _ _ X' Y') as I'.
  rewrite (proj2 (Nat.ltb_lt _ _) I) in E. destruct (encode d (i_format img) c _) as [px| | | |] eqn:EN; try discriminate. cbn [bind] in E. injection E as <-.
  pose proof (encode_length _ _ _ _ _ (bytes_length img _ W I) EN) as L.
  unfold get_pixel, get_index. change (i_width (put_bytes img (y * i_width img + x) px)) with (i_width img). change (i_height (put_bytes img (y * i_width img + x) px)) with (i_height img).
  change (i_format (put_bytes img (y * i_width img + x) px)) with (i_format img).
  rewrite put_other; auto. intro Q. apply index_inj in Q as [-> ->]; auto.
Qed.
Print Assumptions C49_others.

Local Open Scope R_scope.
(** A channel that is dark enough for a signed char, and what becomes of it: the largest
    multiple of 1/255 that is not larger (rounded to float). *)
Definition dark (v : R) : Prop := 0 <= v /\ v * 255 < 128.
Definition quantised (f : R -> R) (v : R) : xr := Fin (f (IZR (Zfloor (v * 255)) / 255)).
Lemma to_char_dark v : dark v -> exists b, to_char (xmul exact (Fin v) (Fin 255)) = Ret b /\ forall f, channel f b = quantised f v.
Proof.
  intros [P D]. unfold xmul, exact, to_char. cbv zeta. rewrite Ztrunc_floor by lra. set (z := Zfloor (v * 255)).
  assert (Z0 : (0 <= z)%Z) by (apply Zfloor_lub; lra). assert (Z1 : (z < 128)%Z) by (apply lt_IZR; pose proof (Zfloor_lb (v * 255)); fold z in H; lra).
  replace ((-128 <=? z)%Z && (z <? 128)%Z) with true by (symmetry; apply andb_true_intro; split; [apply Z.leb_le|apply Z.ltb_lt]; lia).
  exists z. rewrite Z.mod_small by lia. split; [reflexivity|]. intro f. unfold channel, signed, quantised. fold z.
  destruct (Z.ltb_spec z 128); [|lia]. unfold xdiv. destruct (Req_EM_T 255 0); [lra|reflexivity].
Qed.
(** C49. A dark colour (all channels below 128/255) written to an RGBA image is read back with
    every channel rounded down to a multiple of 1/255. *)
Theorem C49_set_get_partial : forall (f : R -> R) (img : image) (x y : nat) (r g b a : R),
  well_sized img -> i_format img = RGBA8 -> (x < i_width img)%nat -> (y < i_height img)%nat -> dark r -> dark g -> dark b -> dark a ->
  exists img', set_pixel exact img x y (mk_color (Fin r) (Fin g) (Fin b) (Fin a)) = Ret img' /\ well_sized img' /\
    get_pixel f img' x y = Ret (mk_color (quantised f r) (quantised f g) (quantised f b) (quantised f a)).
Proof.
  intros f img x y r g b a W F X Y Dr Dg Db Da. pose proof (index_in _ _ _ _ X Y) as I. unfold set_pixel, set_index. rewrite (proj2 (Nat.ltb_lt _ _) I), F. cbn [encode c_r c_g c_b c_a].
  destruct (to_char_dark r Dr) as (br & Er & Cr). destruct (to_char_dark g Dg) as (bg & Eg & Cg). destruct (to_char_dark b Db) as (bb & Eb & Cb). destruct (to_char_dark a Da) as (ba & Ea & Ca).
  rewrite Er, Eg, Eb, Ea. cbn [bind]. eexists. split; [reflexivity|].
  destruct (put_same img (y * i_width img + x) [br; bg; bb; ba] W I) as [W' B]; [now rewrite F|]. split; [exact W'|].
  unfold get_pixel, get_index. cbn [i_width i_height i_format put_bytes]. rewrite (proj2 (Nat.ltb_lt _ _) I), F. fold (put_bytes img (y * i_width img + x) [br; bg; bb; ba]).
  rewrite B. cbn [decode]. now rewrite Cr, Cg, Cb, Ca.
Qed.
Print Assumptions C49_set_get_partial.
Theorem C49_quantised : forall v : R, dark v -> exists q, quantised exact v = Fin q /\ q <= v < q + 1 / 255.
Proof.
  intros v [P D]. unfold quantised, exact. eexists. split; [reflexivity|]. pose proof (Zfloor_lb (v * 255)). pose proof (Zfloor_ub (v * 255)). lra.
Qed.
Print Assumptions C49_quantised.
Example C49_example : dark (1 / 4) /\ well_sized (mk_image RGBA8 2 1 [1; 2; 3; 4; 5; 6; 7; 8])%Z.
Proof. split; [unfold dark; lra|reflexivity]. Qed.

(** C49, what is missing: writing a brighter colour, in particular an opaque one, is undefined, *)
Theorem C49_bright_refuted : forall (img : image) (x y : nat) (r g b a : R),
  i_format img = RGBA8 -> (x < i_width img)%nat -> (y < i_height img)%nat -> dark r -> dark g -> dark b -> 128 <= a * 255 ->
  set_pixel exact img x y (mk_color (Fin r) (Fin g) (Fin b) (Fin a)) = UB.
Proof.
  intros img x y r g b a F X Y Dr Dg Db Da. unfold set_pixel, set_index. rewrite (proj2 (Nat.ltb_lt _ _) (index_in _ _ _ _ X Y)), F. cbn [encode c_r c_g c_b c_a].
  destruct (to_char_dark r Dr) as (br & -> & _). destruct (to_char_dark g Dg) as (bg & -> & _). destruct (to_char_dark b Db) as (bb & -> & _). cbn [bind].
  replace (to_char (xmul exact (Fin a) (Fin 255))) with (@UB Z); [reflexivity|]. symmetry. unfold xmul, exact, to_char. cbv zeta. rewrite Ztrunc_floor by lra.
  replace ((-128 <=? Zfloor (a * 255))%Z && (Zfloor (a * 255) <? 128)%Z) with false; [reflexivity|]. symmetry. apply andb_false_intro2, Z.ltb_ge. now apply Zfloor_lub.
Qed.
Print Assumptions C49_bright_refuted.
(** ... a byte above 127 is read as a negative channel, *)
Theorem C49_negative_refuted : forall b : Z, (128 <= b < 256)%Z -> exists q, channel exact b = Fin q /\ q < 0.
Proof.
  intros b B. unfold channel, signed. destruct (Z.ltb_spec b 128); [lia|]. unfold xdiv, exact. destruct (Req_EM_T 255 0); [lra|]. eexists. split; [reflexivity|].
  assert (IZR (b - 256) <= -1) by (apply IZR_le; lia). lra.
Qed.
Print Assumptions C49_negative_refuted.
(** ... and for RGB images, writing has no effect and every pixel is read as black. *)
Theorem C49_rgb_refuted : forall (img : image) (x y : nat) (c : color),
  i_format img = RGB8 -> well_sized img -> (x < i_width img)%nat -> (y < i_height img)%nat ->
  set_pixel exact img x y c = Ret img /\ get_pixel exact img x y = Ret black.
Proof.
  intros img x y c F W X Y. pose proof (index_in _ _ _ _ X Y) as I. unfold set_pixel, set_index, get_pixel, get_index. rewrite (proj2 (Nat.ltb_lt _ _) I), F. split; [|reflexivity].
  cbn [encode bind]. f_equal. unfold put_bytes, pixel_bytes. destruct img as [fm w h l]. cbn [i_format i_width i_height i_data] in *. f_equal.
  assert (SA : forall a b (l : list Z), skipn a (skipn b l) = skipn (b + a) l).
  { clear. intros a b. induction b as [|b IH]; intro l; [reflexivity|]. destruct l as [|z l]; [now rewrite !skipn_nil|]. cbn [skipn Nat.add]. apply IH. }
  rewrite <- (SA (pixel_size fm)). rewrite (firstn_skipn (pixel_size fm)), firstn_skipn. reflexivity.
Qed.
Print Assumptions C49_rgb_refuted.
(** C49. Only the index is checked: a column beyond the width is a pixel of the next row. *)
Theorem C49_wrap_refuted : forall (img : image) (x y : nat), get_pixel exact img (x + i_width img) y = get_pixel exact img x (S y).
Proof. intros. unfold get_pixel. f_equal. lia. Qed.
Print Assumptions C49_wrap_refuted.

(** C49. Beyond the last pixel the assertion fails; an image that has less data than pixels is read out of
    bounds. *)
Theorem C49_bounds : forall (f : R -> R) (img : image) (idx : nat),
  ((i_width img * i_height img <= idx)%nat -> get_index f img idx = Throw) /\
  ((idx < i_width img * i_height img)%nat -> i_format img = RGBA8 -> (length (i_data img) < idx * 4 + 4)%nat -> get_index f img idx = UB).
Proof.
  intros f img idx. unfold get_index. destruct (Nat.ltb_spec idx (i_width img * i_height img)) as [L|L]; split; intros; try lia; [|reflexivity].
  unfold pixel_bytes. rewrite H0. cbn [pixel_size]. assert (K : (length (firstn 4 (skipn (idx * 4) (i_data img))) < 4)%nat) by (rewrite firstn_length, skipn_length; lia).
  destruct (firstn 4 (skipn (idx * 4) (i_data img))) as [|r [|g [|b [|a q]]]]; try reflexivity. cbn in K. lia.
Qed.
Print Assumptions C49_bounds.

(** C49. Converting RGB to RGBA keeps the three bytes of every pixel and makes it opaque;
    converting back gives the original image. *)
Lemma add_alpha_nth n : forall src j, length src = (n * 3)%nat -> (j < n)%nat ->
  firstn 4 (skipn (j * 4) (add_alpha n src)) = firstn 3 (skipn (j * 3) src) ++ [255%Z].
Proof.
  induction n as [|n IH]; intros src j L J; [lia|]. destruct src as [|r [|g [|b src]]]; try (cbn in L; lia).
  destruct j as [|j]; [reflexivity|]. cbn [add_alpha firstn skipn app Nat.mul Nat.add]. apply IH; [cbn in L; lia|lia].
Qed.
Lemma add_alpha_length n : forall src, length src = (n * 3)%nat -> length (add_alpha n src) = (n * 4)%nat.
Proof.
  induction n as [|n IH]; intros src L; [reflexivity|]. destruct src as [|r [|g [|b src]]]; try (cbn in L; lia).
  cbn [add_alpha firstn skipn app length]. rewrite IH by (cbn in L; lia). reflexivity.
Qed.
Lemma drop_add n : forall src, length src = (n * 3)%nat -> drop_alpha n (add_alpha n src) = src.
Proof.
  induction n as [|n IH]; intros src L; [now destruct src|]. destruct src as [|r [|g [|b src]]]; try (cbn in L; lia).
  cbn [add_alpha drop_alpha firstn skipn app]. now rewrite IH by (cbn in L; lia).
Qed.
Theorem C49_convert : forall img : image, i_format img = RGB8 -> well_sized img ->
  i_format (rgb_to_rgba img) = RGBA8 /\ i_width (rgb_to_rgba img) = i_width img /\ i_height (rgb_to_rgba img) = i_height img /\
  well_sized (rgb_to_rgba img) /\
  (forall j, (j < i_width img * i_height img)%nat -> pixel_bytes (rgb_to_rgba img) j = pixel_bytes img j ++ [255%Z]) /\
  rgba_to_rgb (rgb_to_rgba img) = img.
Proof.
  intros [fm w h l] F W. cbn [i_format] in F. subst fm. unfold well_sized in W. cbn [i_data i_width i_height i_format pixel_size] in W.
  unfold rgb_to_rgba, rgba_to_rgb, well_sized, pixel_bytes. cbn [i_data i_width i_height i_format pixel_size].
  repeat split; [now apply add_alpha_length|intros; now apply add_alpha_nth|now rewrite drop_add].
Qed.
Print Assumptions C49_convert.
Example C49_convert_example : rgb_to_rgba (mk_image RGB8 2 1 [1; 2; 3; 4; 5; 6]%Z) = mk_image RGBA8 2 1 [1; 2; 3; 255; 4; 5; 6; 255]%Z.
Proof. reflexivity. Qed.

(** C49. Clearing an RGBA image with a dark colour gives every pixel that colour. *)
Theorem C49_clear_partial : forall (f : R -> R) (img : image) (r g b a : R),
  well_sized img -> i_format img = RGBA8 -> dark r -> dark g -> dark b -> dark a ->
  exists img', clear exact img (mk_color (Fin r) (Fin g) (Fin b) (Fin a)) = Ret img' /\ i_width img' = i_width img /\ i_height img' = i_height img /\
    forall x y, (x < i_width img)%nat -> (y < i_height img)%nat ->
      get_pixel f img' x y = Ret (mk_color (quantised f r) (quantised f g) (quantised f b) (quantised f a)).
Proof.
  intros f img r g b a W F Dr Dg Db Da.
  destruct (to_char_dark r Dr) as (br & Er & Cr). destruct (to_char_dark g Dg) as (bg & Eg & Cg). destruct (to_char_dark b Db) as (bb & Eb & Cb). destruct (to_char_dark a Da) as (ba & Ea & Ca).
  set (px := [br; bg; bb; ba]).
  assert (G : forall n idx img, well_sized img -> i_format img = RGBA8 -> (idx + n = i_width img * i_height img)%nat ->
    (forall j, (j < idx)%nat -> pixel_bytes img j = px) ->
    exists img', clear_from exact n idx img (mk_color (Fin r) (Fin g) (Fin b) (Fin a)) = Ret img' /\ i_width img' = i_width img /\ i_height img' = i_height img /\
      i_format img' = RGBA8 /\ forall j, (j < i_width img * i_height img)%nat -> pixel_bytes img' j = px).
  { clear W F img. induction n as [|n IH]; intros idx img W F L B.
    - exists img. repeat split; auto. intros j J. apply B. lia.
    - cbn [clear_from]. rewrite F. cbn [encode c_r c_g c_b c_a]. rewrite Er, Eg, Eb, Ea. cbn [bind]. fold px.
      destruct (put_same img idx px W ltac:(lia)) as [W' SB]; [now rewrite F|].
      destruct (IH (S idx) (put_bytes img idx px) W') as (img' & E & A1 & A2 & A3 & A4).
      + exact F.
      + cbn [put_bytes i_width i_height]. lia.
      + intros j J. destruct (Nat.eq_dec j idx) as [->|N]; [exact SB|]. rewrite put_other; [apply B; lia|exact W|lia|now rewrite F|exact N|lia].
      + exists img'. repeat split; auto. }
  destruct (G (i_width img * i_height img)%nat 0%nat img W F ltac:(lia)) as (img' & E & A1 & A2 & A3 & A4); [intros j J; lia|].
  exists img'. split; [exact E|]. split; [exact A1|]. split; [exact A2|]. intros x y X Y. pose proof (index_in _ _ _ _ X Y) as I.
  unfold get_pixel, get_index. rewrite A1, A2, A3, (proj2 (Nat.ltb_lt _ _) I), A4 by exact I. unfold px. cbn [decode]. now rewrite Cr, Cg, Cb, Ca.
Qed.
Print Assumptions C49_clear_partial.
