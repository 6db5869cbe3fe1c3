(** C110: images written as PNG files. *)
From Verif Require Import Base Num Image_Model Png_Model.
From Coq Require Import ZArith.

(* ---------------- specification ---------------- *)
(** The samples of the pixel in column x and row y of a PNG image (8 bits each). *)
Definition samples (c : color_type) : nat := match c with ColorRGB => 3 | ColorRGBA => 4 end.
Definition png_pixel (p : png) (x y : nat) : option (list Z) :=
  match nth_error (png_rows p) y with
  | Some r => let s := samples (png_color p) in
              if (x * s + s <=? length r)%nat then Some (firstn s (skipn (x * s) r)) else None
  | None => None
  end.
(** An image whose pixel map has the size it must have. *)
Definition sound (img : image) : Prop := length (i_data img) = (pixel_size (i_format img) * (i_width img * i_height img))%nat.

Lemma skipn_twice {A} (l : list A) : forall a b, skipn b (skipn a l) = skipn (b + a) l.
Proof.
  induction l as [|x l IH]; intros a b; [now rewrite !skipn_nil|]. destruct a as [|a]; [now rewrite Nat.add_0_r|]. rewrite Nat.add_succ_r. cbn [skipn]. apply IH.
Qed.
Lemma firstn_skipn_in {A} (l : list A) a b m n : (b + n <= m)%nat -> firstn n (skipn b (firstn m (skipn a l))) = firstn n (skipn (b + a) l).
Proof. intro H. rewrite skipn_firstn_comm, firstn_firstn, skipn_twice. f_equal. lia. Qed.

(** C110. The file of an image has its width and height, 8 bits for a sample, an alpha channel if and
    only if the image has one, and every pixel of the image. *)
Theorem C110_written : forall (img : image),
  sound img -> (0 < i_width img)%nat -> (0 < i_height img)%nat -> (Z.of_nat (i_width img) < 2 ^ 31)%Z -> (Z.of_nat (i_height img) < 2 ^ 31)%Z ->
  exists p, png_write_image_file true true img = Ret p /\
    png_width p = Z.of_nat (i_width img) /\ png_height p = Z.of_nat (i_height img) /\ png_depth p = 8%nat /\
    (png_color p = ColorRGBA <-> i_format img = RGBA8) /\ length (png_rows p) = i_height img /\
    (forall r, In r (png_rows p) -> length r = (samples (png_color p) * i_width img)%nat) /\
    forall x y, (x < i_width img)%nat -> (y < i_height img)%nat -> png_pixel p x y = Some (pixel_bytes img (y * i_width img + x)).
Proof.
  intros [fmt w h data] S W H Bw Bh. unfold sound in S. cbn [i_format i_width i_height i_data] in *. unfold png_write_image_file. cbn [i_format i_width i_height negb].
  unfold to_u32. rewrite !Z.mod_small by lia.
  destruct (Z.eqb_spec (Z.of_nat w) 0); [lia|]. destruct (Z.leb_spec (2 ^ 31) (Z.of_nat w)); [lia|]. destruct (Z.eqb_spec (Z.of_nat h) 0); [lia|].
  destruct (Z.leb_spec (2 ^ 31) (Z.of_nat h)); [lia|]. cbn [orb].
  set (img := mk_image fmt w h data). set (rows := map (row img) (seq 0 h)).
  assert (P : forall q, png_rows q = rows -> samples (png_color q) = pixel_size fmt -> forall x y, (x < w)%nat -> (y < h)%nat -> png_pixel q x y = Some (pixel_bytes img (y * w + x))).
  { intros q R C x y X Y. unfold png_pixel. rewrite R. unfold rows. rewrite nth_error_map, (nth_error_nth' (seq 0 h) 0%nat) by (rewrite seq_length; exact Y). rewrite seq_nth by exact Y. cbn [option_map plus].
    cbv zeta. rewrite C. unfold row. cbn [img i_format i_width i_data]. rewrite firstn_length, skipn_length, S.
    assert (Q : (y * pixel_size fmt * w + pixel_size fmt * w <= pixel_size fmt * (w * h))%nat) by nia. assert (V : (x * pixel_size fmt + pixel_size fmt <= pixel_size fmt * w)%nat) by nia.
    destruct (Nat.leb_spec (x * pixel_size fmt + pixel_size fmt) (Nat.min (pixel_size fmt * w) (pixel_size fmt * (w * h) - y * pixel_size fmt * w))); [|lia].
    f_equal. rewrite firstn_skipn_in by exact V. unfold pixel_bytes. cbn [img i_format i_data]. f_equal. f_equal. lia. }
  assert (Ln : forall r, In r rows -> length r = (pixel_size fmt * w)%nat).
  { intros r R. apply in_map_iff in R as (i & <- & I). apply in_seq in I. unfold row. cbn [img i_format i_width i_data]. rewrite firstn_length, skipn_length, S. nia. }
  assert (Lr : length rows = h) by (unfold rows; rewrite map_length; apply seq_length).
  destruct fmt; (eexists; split; [reflexivity|]; cbn [png_width png_height png_depth png_color png_rows]; split; [reflexivity|]; split; [reflexivity|]; split; [reflexivity|]; split; [split; (discriminate || reflexivity)|]; split; [exact Lr|]; split; [exact Ln|]; now apply P).
Qed.
Print Assumptions C110_written.

(** C110, refuted: when the file cannot be created there is an error. The result of fopen is not
    checked, and the process ends in libpng. *)
Theorem C110_no_file_refuted : forall (structs : bool) (img : image), png_write_image_file false structs img = UB.
Proof. intros structs [[] w h data]; reflexivity. Qed.
Print Assumptions C110_no_file_refuted.
(** C110, refuted: an image without pixels is written or refused. *)
Theorem C110_empty_refuted : forall (img : image), i_width img = 0%nat \/ i_height img = 0%nat -> png_write_image_file true true img = UB.
Proof.
  intros [fmt w h data] E. unfold png_write_image_file. cbn [i_format i_width i_height negb]. unfold to_u32.
  assert (X : ((Z.of_nat w mod 2 ^ 32 =? 0) || (2 ^ 31 <=? Z.of_nat w mod 2 ^ 32) || (Z.of_nat h mod 2 ^ 32 =? 0) || (2 ^ 31 <=? Z.of_nat h mod 2 ^ 32))%Z = true).
  { cbn [i_width i_height] in E. destruct E as [-> | ->]; [reflexivity|]. change (Z.of_nat 0 mod 2 ^ 32 =? 0)%Z with true. now rewrite !orb_true_r. }
  destruct fmt; cbv zeta; rewrite X; reflexivity.
Qed.
Print Assumptions C110_empty_refuted.
Example C110_case : exists p,
  sound (mk_image RGB8 2 2 [1; 2; 3; 4; 5; 6; 7; 8; 9; 10; 11; 12]%Z) /\
  png_write_image_file true true (mk_image RGB8 2 2 [1; 2; 3; 4; 5; 6; 7; 8; 9; 10; 11; 12]%Z) = Ret p /\
  png_pixel p 1 0 = Some [4; 5; 6]%Z /\ png_pixel p 0 1 = Some [7; 8; 9]%Z.
Proof. eexists. repeat split. Qed.
