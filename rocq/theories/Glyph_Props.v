(** C94: Glyph outlines. *)
From Coq Require Import Reals Lra.
From Verif Require Import Base Num Num_Facts Cmd_Model Geo_Model Geo_Spec Geo_Proofs Glyph_Model Glyph_Spec.
Local Open Scope R_scope.

Definition ptype (k : kind) : point_type :=
  match k with OnCurve => On | ConicControl => Off2 | CubicControl => Off3 end.
(** The point as the code keeps it (y downwards). *)
Definition dn (q : pt) : vec2 := mk_vec2 (Fin (fst q)) (Fin (- snd q)).
Definition emb (x : pt * kind) : vec2 * point_type := (dn (fst x), ptype (snd x)).

Lemma up_dn q : up (dn q) = P q.
Proof. unfold up, dn, P; cbn. now rewrite Ropp_involutive. Qed.
Lemma mid_dn a b m : halfway a b m -> midpoint exact (dn a) (dn b) = dn m.
Proof.
  intros [H1 H2]. unfold midpoint, vmul, vadd, dn, xadd, xmul, exact; cbn. rewrite H1, H2.
  f_equal; f_equal; lra.
Qed.
Lemma mid_sym a b m : halfway a b m -> halfway b a m.
Proof. intros [H1 H2]; split; rewrite ?H1, ?H2; lra. Qed.

(** All points written. *)
Fixpoint full (a : pt) (segs : list segment) : list (pt * kind) :=
  match segs with
  | [] => []
  | s :: r => (a, OnCurve) :: controls s ++ full (stop_of s) r
  end.

Lemma iv_cons d x y r : insert_virtual d (x :: y :: r) =
  x :: match snd x, snd y with Off2, Off2 => (midpoint d (fst x) (fst y), On) :: insert_virtual d (y :: r) | _, _ => insert_virtual d (y :: r) end.
Proof. destruct x as [a []], y as [b []]; reflexivity. Qed.

(** What the segments before end with. *)
Definition ends_with (before : option pt) (x : pt * kind) : Prop :=
  match before with Some c => x = (c, ConicControl) | None => snd x <> ConicControl end.

Lemma iv_on d (x : vec2 * point_type) a r : insert_virtual d (x :: (a, On) :: r) = x :: insert_virtual d ((a, On) :: r).
Proof. rewrite iv_cons. destruct x as [p []]; reflexivity. Qed.
Lemma iv_on' d a x r : insert_virtual d ((a, On) :: x :: r) = (a, On) :: insert_virtual d (x :: r).
Proof. rewrite iv_cons. reflexivity. Qed.
Lemma iv_off3 d a (x : vec2 * point_type) r : insert_virtual d ((a, Off3) :: x :: r) = (a, Off3) :: insert_virtual d (x :: r).
Proof. rewrite iv_cons. reflexivity. Qed.
Lemma iv_on3 d a x r : insert_virtual d (a :: (x, Off3) :: r) = a :: insert_virtual d ((x, Off3) :: r).
Proof. rewrite iv_cons. destruct a as [p []]; reflexivity. Qed.

Lemma emb_app l m : map emb (l ++ m) = map emb l ++ map emb m.
Proof. apply map_app. Qed.

Lemma iv_written before a segs after l : written before a segs after l -> forall x, ends_with before x ->
  insert_virtual exact (map emb (x :: l)) = emb x :: map emb (full a segs).
Proof.
  induction 1 as [before a|before a s segs after l Hw IH|before a s segs after l Hi Hw IH]; intros x Hx.
  - reflexivity.
  - cbn [full map]. change (emb (a, OnCurve)) with (dn a, On). rewrite iv_on. f_equal.
    destruct s as [b|c b|c1 c2 b]; cbn [controls app stop_of conic] in *.
    + specialize (IH (a, OnCurve) ltac:(cbn; discriminate)). cbn [map] in IH. exact IH.
    + cbn [map]. change (emb (c, ConicControl)) with (dn c, Off2). rewrite iv_on'. f_equal.
      specialize (IH (c, ConicControl) eq_refl). cbn [map] in IH. exact IH.
    + cbn [map]. change (emb (c1, CubicControl)) with (dn c1, Off3). change (emb (c2, CubicControl)) with (dn c2, Off3).
      rewrite iv_on', iv_off3. do 2 f_equal.
      specialize (IH (c2, CubicControl) ltac:(cbn; discriminate)). cbn [map] in IH. exact IH.
  - destruct Hi as (c0 & c & -> & Hc & Hm). destruct s as [b|c' b|c1 c2 b]; try discriminate. injection Hc as ->.
    cbn [controls app stop_of conic full] in *. cbn in Hx. subst x. cbn [map].
    change (emb (c, ConicControl)) with (dn c, Off2). change (emb (c0, ConicControl)) with (dn c0, Off2).
    change (emb (a, OnCurve)) with (dn a, On).
    rewrite iv_cons. cbn [snd fst]. rewrite (mid_dn _ _ _ Hm). do 2 f_equal.
    specialize (IH (c, ConicControl) eq_refl). cbn [map] in IH. exact IH.
Qed.

Lemma segs_full a segs : forall b tail, last (map stop_of segs) a = b ->
  segments (map emb (full a segs) ++ (dn b, On) :: tail) = map command segs ++ segments ((dn b, On) :: tail).
Proof.
  revert a. induction segs as [|s segs IH]; intros a b tail Hb; [reflexivity|].
  assert (Hl : last (map stop_of segs) (stop_of s) = b).
  { cbn [map] in Hb. clear -Hb. revert Hb. generalize (stop_of s). induction (map stop_of segs) as [|z r IH]; intros q; [easy|].
    cbn [last]. destruct r; [easy|]. intros H. apply (IH q). exact H. }
  specialize (IH _ _ tail Hl).
  assert (Hnext : exists r, map emb (full (stop_of s) segs) ++ (dn b, On) :: tail = (dn (stop_of s), On) :: r).
  { destruct segs; cbn [full map app]; [cbn in Hl; subst b; eauto|eexists; reflexivity]. }
  destruct Hnext as [r Hr]. rewrite Hr in IH.
  destruct s as [q|c q|c1 c2 q]; cbn [full controls app map command stop_of] in *; rewrite <- ?app_comm_cons, Hr;
    change (emb (a, OnCurve)) with (dn a, On).
  - cbn [segments]. rewrite up_dn. f_equal. exact IH.
  - change (emb (c, ConicControl)) with (dn c, Off2). cbn [segments]. rewrite !up_dn. f_equal. exact IH.
  - change (emb (c1, CubicControl)) with (dn c1, Off3). change (emb (c2, CubicControl)) with (dn c2, Off3).
    cbn [segments]. rewrite !up_dn. f_equal. exact IH.
Qed.

Lemma written_last before a segs after l : written before a segs after l -> segs <> [] ->
  exists x, last l x = x /\ ends_with after x /\ l <> [].
Proof.
  induction 1 as [before a|before a s segs after l Hw IH|before a s segs after l Hi Hw IH]; intros Hn; [easy| |].
  - destruct segs as [|s' segs].
    + inversion Hw; subst. destruct s as [b|c b|c1 c2 b]; cbn.
      * exists (a, OnCurve); cbn; repeat split; discriminate.
      * exists (c, ConicControl); cbn; repeat split; discriminate.
      * exists (c2, CubicControl); cbn; repeat split; discriminate.
    + destruct (IH ltac:(discriminate)) as (x & Hx & He & Hl). exists x. repeat split; [|exact He|discriminate].
      rewrite app_comm_cons. destruct l as [|y l]; [easy|].
      rewrite <- Hx at 2. clear. generalize ((a, OnCurve) :: controls s). intros m. induction m as [|z m IH]; [reflexivity|].
      cbn [app last]. destruct (m ++ y :: l) eqn:E; [destruct m; discriminate|]. exact IH.
  - destruct segs as [|s' segs].
    + inversion Hw; subst. destruct Hi as (c0 & c & -> & Hc & _). destruct s as [b|c' b|c1 c2 b]; try discriminate. injection Hc as ->. cbn.
      exists (c, ConicControl); cbn; repeat split; discriminate.
    + destruct (IH ltac:(discriminate)) as (x & Hx & He & Hl). exists x.
      destruct l as [|y l]; [easy|]. repeat split; [|exact He|destruct (controls s); discriminate].
      rewrite <- Hx at 2. clear. generalize (controls s). intros m. induction m as [|z m IH]; [reflexivity|].
      cbn [app last]. destruct (m ++ y :: l) eqn:E; [destruct m; discriminate|]. exact IH.
Qed.

Lemma hd_iv d x r q : hd q (insert_virtual d (x :: r)) = x.
Proof. destruct r as [|y r]; [destruct x; reflexivity|rewrite iv_cons; reflexivity]. Qed.
Lemma iv_nonempty d x r : exists t, insert_virtual d (x :: r) = x :: t.
Proof. destruct r as [|y r]; [destruct x; eexists; reflexivity|rewrite iv_cons; eauto]. Qed.
Lemma last_iv d q l : last (insert_virtual d l) q = last l q.
Proof.
  induction l as [|x [|y r] IH]; [reflexivity|destruct x; reflexivity|].
  rewrite iv_cons. destruct (iv_nonempty d y r) as [t Ht]. rewrite Ht in *.
  change (last (x :: y :: r) q) with (last (y :: r) q). rewrite <- IH.
  destruct (snd x), (snd y); reflexivity.
Qed.
Lemma last_default {A} (l : list A) p q : l <> [] -> last l p = last l q.
Proof. induction l as [|x [|y r] IH]; [easy|reflexivity|]. intros _. apply IH. discriminate. Qed.
Lemma last_snoc {A} (l : list A) x q : last (l ++ [x]) q = x.
Proof. apply last_last. Qed.
Lemma last_map {A B} (f : A -> B) l q : last (map f l) (f q) = f (last l q).
Proof. induction l as [|x [|y r] IH]; [reflexivity|reflexivity|]. exact IH. Qed.

(** One contour. *)
Lemma contour_ok asserts l a segs : is_curve l a segs ->
  exists p, contour_path exact asserts (map emb l) = Ret p /\ draws_curve a segs p.
Proof.
  intros [[[Hn Hc] (around & Hw)] | (c & m & -> & [[Hn Hc] (around & Hw)])].
  - destruct segs as [|s segs]; [easy|]. inversion Hw as [|s' segs' after l' Hw' Es Ea El|s' segs' after l' Hi Hw' Es Ea El]; subst.
    + (* the start is written *)
      pose proof (written_all around a s segs around l' Hw') as HW.
      pose proof (written_all None a s segs around l' Hw') as HN.
      assert (Hv : insert_virtual exact (map emb ((a, OnCurve) :: controls s ++ l')) = map emb (full a (s :: segs))).
      { pose proof (iv_written _ _ _ _ _ HN (a, OnCurve) ltac:(cbn; discriminate)) as H.
        cbn [map] in H. change (emb (a, OnCurve)) with (dn a, On) in *. rewrite iv_on' in H. apply (f_equal (@tl _)) in H. exact H. }
      cbn [map]. unfold contour_path. unfold resolve.
      change (emb (a, OnCurve) :: map emb (controls s ++ l')) with (map emb ((a, OnCurve) :: controls s ++ l')).
      rewrite Hv. cbn [full map]. change (emb (a, OnCurve)) with (dn a, On).
      unfold start_with_virtual, start_with_last, front, back. cbn [hd snd fst app].
      rewrite up_dn.
      eexists. split; [reflexivity|].
      exists []. split; [now left|]. f_equal. cbn [app].
      pose proof (segs_full a (s :: segs) a [] Hc) as H. cbn [full map] in H. change (emb (a, OnCurve)) with (dn a, On) in H.
      rewrite <- app_comm_cons in H. rewrite H. cbn [segments]. now rewrite app_nil_r.
    + (* the start is implied *)
      pose proof (written_last _ _ _ _ _ Hw Hn) as (x & Hx & He & Hne).
      destruct Hi as (c0 & c1 & -> & Hc1 & Hm). cbn in He. subst x.
      destruct s as [b|c' b|c1' c2 b]; try discriminate. injection Hc1 as ->.
      cbn [controls app] in *. cbn [stop_of conic] in Hw'.
      pose proof (iv_written _ _ _ _ _ Hw (c0, ConicControl) eq_refl) as H.
      cbn [map full controls app stop_of] in H.
      assert (Hv : insert_virtual exact (map emb ((c1, ConicControl) :: l')) = map emb ((c1, ConicControl) :: full b segs)).
      { change (emb (c1, ConicControl)) with (dn c1, Off2) in H. change (emb (c0, ConicControl)) with (dn c0, Off2) in H.
        rewrite iv_cons in H. cbn [snd] in H. apply (f_equal (fun w => tl (tl w))) in H. exact H. }
      cbn [map]. unfold contour_path, resolve.
      change (emb (c1, ConicControl) :: map emb l') with (map emb ((c1, ConicControl) :: l')).
      assert (Hlast : last (insert_virtual exact (map emb ((c1, ConicControl) :: l'))) (emb (c1, ConicControl)) = (dn c0, Off2)).
      { rewrite last_iv, last_map. rewrite (last_default _ (c1, ConicControl) (c0, ConicControl)) by discriminate.
        rewrite Hx. reflexivity. }
      unfold start_with_last, front, back. rewrite Hlast.
      rewrite Hv in *. cbn [hd map]. change (snd (emb (c1, ConicControl))) with Off2. cbn [snd].
      unfold start_with_virtual, front, back. cbn [map] in Hlast. rewrite Hlast. cbn [hd map].
      change (emb (c1, ConicControl)) with (dn c1, Off2). cbn [snd fst hd].
      rewrite (mid_dn c1 c0 a) by now apply mid_sym.
      cbn [app hd fst snd]. rewrite up_dn.
      eexists. split; [reflexivity|].
      exists []. split; [now left|]. f_equal. cbn [app].
      pose proof (segs_full a (Conic c1 b :: segs) a [] Hc) as H2. cbn [full map controls app stop_of] in H2.
      change (emb (a, OnCurve)) with (dn a, On) in H2. change (emb (c1, ConicControl)) with (dn c1, Off2) in H2.
      rewrite H2. cbn [segments]. now rewrite app_nil_r.
  - (* the start is the last point *)
    destruct segs as [|s segs]; [easy|].
    assert (HN : written None a (s :: segs) around ((a, OnCurve) :: (c, ConicControl) :: m)).
    { inversion Hw as [|s' segs' after l' Hw' Es Ea El|s' segs' after l' Hi Hw' Es Ea El]; subst; [now constructor|].
      destruct Hi as (c0 & c1 & _ & Hc1 & _). destruct s; try discriminate. }
    assert (Hv : insert_virtual exact (map emb ((c, ConicControl) :: m ++ [(a, OnCurve)])) =
                 tl (map emb (full a (s :: segs))) ++ [(dn a, On)]).
    { pose proof (iv_written _ _ _ _ _ HN (a, OnCurve) ltac:(cbn; discriminate)) as H.
      cbn [map] in H. change (emb (a, OnCurve)) with (dn a, On) in *. rewrite iv_on' in H. apply (f_equal (@tl _)) in H. cbn [tl] in H. rewrite iv_on' in H. apply (f_equal (@tl _)) in H. cbn [tl] in H.
      change (emb (c, ConicControl)) with (dn c, Off2) in H.
      assert (Hs : forall (w : contour) q, insert_virtual exact (w ++ [(q, On)]) = insert_virtual exact w ++ [(q, On)]).
      { clear. intros w q. induction w as [|x [|y r] IH]; [reflexivity|cbn [app]; rewrite iv_on; destruct x; reflexivity|].
        cbn [app] in *. rewrite !iv_cons. rewrite IH. destruct (snd x), (snd y); reflexivity. }
      rewrite app_comm_cons, emb_app. cbn [map]. change (emb (a, OnCurve)) with (dn a, On). rewrite Hs. f_equal.
      change (emb (c, ConicControl)) with (dn c, Off2).
      assert (Hf : map emb (full a (s :: segs)) = (dn a, On) :: insert_virtual exact ((dn c, Off2) :: map emb m)).
      { cbn [full map]. change (emb (a, OnCurve)) with (dn a, On). f_equal. symmetry. exact H. }
      rewrite Hf. reflexivity. }
    cbn [map]. unfold contour_path, resolve.
    change (emb (c, ConicControl) :: map emb (m ++ [(a, OnCurve)])) with (map emb ((c, ConicControl) :: m ++ [(a, OnCurve)])).
    set (q := emb (c, ConicControl)).
    unfold start_with_last, front, back.
    assert (Hh : hd q (insert_virtual exact (map emb ((c, ConicControl) :: m ++ [(a, OnCurve)]))) = (dn c, Off2))
      by (cbn [map]; rewrite hd_iv; reflexivity).
    rewrite Hh. rewrite Hv. rewrite last_snoc. cbn [snd].
    unfold start_with_virtual, front, back. cbn [hd snd app].
    cbn [fst]. rewrite up_dn. eexists. split; [reflexivity|].
    exists [LineTo (P a)]. split; [now right|]. f_equal.
    pose proof (segs_full a (s :: segs) a [(dn a, On)] Hc) as H2.
    assert (Hf : map emb (full a (s :: segs)) = (dn a, On) :: tl (map emb (full a (s :: segs)))) by reflexivity.
    rewrite Hf in H2. rewrite <- app_comm_cons in H2.
    replace ((tl (map emb (full a (s :: segs))) ++ [(dn a, On)]) ++ [(dn a, On)]) with
      (tl (map emb (full a (s :: segs))) ++ [(dn a, On); (dn a, On)]) by (rewrite <- app_assoc; reflexivity).
    cbn [app hd fst]. rewrite H2. cbn [segments]. rewrite up_dn. now rewrite <- app_assoc.
Qed.

(* ---------------- Every TrueType contour is a curve ---------------- *)
Definition ctrl (x : pt * kind) : option pt := match snd x with ConicControl => Some (fst x) | _ => None end.
Definition mid (a b : pt) : pt := ((fst a + fst b) / 2, (snd a + snd b) / 2).
Lemma mid_half a b : halfway a b (mid a b).
Proof. split; reflexivity. Qed.

Lemma last_cons {A} (x y : A) l : last (x :: l) y = last l x.
Proof.
  revert x y. induction l as [|z l IH]; intros x y; [reflexivity|].
  change (last (x :: z :: l) y) with (last (z :: l) y). now rewrite !IH.
Qed.

Lemma truetype_build z : forall r, Forall (fun x => snd x <> CubicControl) r ->
  (forall a, exists segs, segs <> [] /\ last (map stop_of segs) z = z /\
     forall before, written before a segs (ctrl (last r (a, OnCurve))) ((a, OnCurve) :: r)) /\
  (forall c, exists b segs, last (map stop_of segs) b = z /\ written (Some c) b segs (ctrl (last r (c, ConicControl))) r).
Proof.
  induction r as [|[x k] r IH]; intros Hr.
  - split.
    + intros a. exists [Straight z]. split; [discriminate|]. split; [reflexivity|]. intros before.
      apply (written_all before a (Straight z) [] None []). cbn. constructor.
    + intros c. exists z, []. split; [reflexivity|]. cbn. constructor.
  - inversion Hr as [|? ? Hk Hr']; subst. destruct (IH Hr') as [I1 I2]. destruct k; cbn in Hk; [| |easy].
    + destruct (I1 x) as (segs & Hn & Hz & Hw). split.
      * intros a. exists (Straight x :: segs). split; [discriminate|]. split.
        { cbn [map stop_of]. rewrite last_cons. rewrite (last_default _ x z); [exact Hz|destruct segs; [easy|discriminate]]. }
        intros before. rewrite last_cons. apply (written_all before a (Straight x) segs). cbn [conic stop_of controls]. apply Hw.
      * intros c. exists x, segs. split.
        { rewrite (last_default _ x z); [exact Hz|destruct segs; [easy|discriminate]]. }
        rewrite last_cons. apply Hw.
    + destruct (I2 x) as (b & segs & Hz & Hw). split.
      * intros a. exists (Conic x b :: segs). split; [discriminate|]. split.
        { cbn [map stop_of]. rewrite last_cons. exact Hz. }
        intros before. rewrite last_cons. apply (written_all before a (Conic x b) segs). exact Hw.
      * intros c. exists (mid c x), (Conic x b :: segs). split; [cbn [map stop_of]; rewrite last_cons; exact Hz|].
        rewrite last_cons. apply (written_implied (Some c) (mid c x) (Conic x b) segs); [|exact Hw].
        exists c, x. repeat split.
Qed.

Theorem C94_truetype : forall l : list (pt * kind),
  l <> [] -> Forall (fun x => snd x <> CubicControl) l -> exists a segs, is_curve l a segs.
Proof.
  intros [|[x k] r] Hn Hr; [easy|]. inversion Hr as [|? ? Hk Hr']; subst. destruct k; cbn in Hk; [| |easy].
  - destruct (truetype_build x r Hr') as [H _]. destruct (H x) as (segs & Hs & Hz & Hw).
    exists x, segs. left. split; [split; assumption|]. eexists. apply Hw.
  - destruct (exists_last (l := (x, ConicControl) :: r) ltac:(discriminate)) as (m & [y ky] & E).
    destruct ky.
    + (* ends on the curve *)
      destruct m as [|x' m]; [discriminate|]. cbn [app] in E. injection E as <- E. subst r.
      destruct (truetype_build y ((x, ConicControl) :: m)) as [H _].
      { apply Forall_app in Hr'. constructor; [discriminate|tauto]. }
      destruct (H y) as (segs & Hs & Hz & Hw). exists y, segs. right. exists x, m. split; [reflexivity|].
      split; [split; assumption|]. eexists. apply Hw.
    + destruct (truetype_build (mid y x) r Hr') as [_ H]. destruct (H x) as (b & segs & Hz & Hw).
      exists (mid y x), (Conic x b :: segs). left. split.
      { split; [discriminate|]. cbn [map stop_of]. rewrite last_cons. exact Hz. }
      assert (Hl : last r (x, ConicControl) = (y, ConicControl)).
      { rewrite <- (last_cons _ (x, ConicControl)). rewrite E. apply last_snoc. }
      rewrite Hl in Hw. exists (Some y). apply (written_implied (Some y) (mid y x) (Conic x b) segs); [|exact Hw].
      exists y, x. repeat split.
    + exfalso. assert (Hin : In (y, CubicControl) ((x, ConicControl) :: r)) by (rewrite E; apply in_or_app; right; now left).
      rewrite Forall_forall in Hr. now apply (Hr _ Hin).
Qed.

(* ---------------- Reading the outline ---------------- *)
Lemma tag_ok t k : tag_means t k -> curve_tag t = Some (ptype k).
Proof.
  intros [H0 H1]. unfold curve_tag.
  assert (E : N.land t 3 = match k with OnCurve => 1 | ConicControl => 0 | CubicControl => 2 end%N).
  { apply N.bits_inj. intros i. rewrite N.land_spec.
    destruct (N.le_gt_cases 2 i) as [Hi|Hi].
    - rewrite (N.bits_above_log2 3 i) by (cbn; lia). rewrite andb_false_r.
      symmetry. destruct k; [apply N.bits_above_log2; cbn; lia|apply N.bits_0|apply N.bits_above_log2; cbn; lia].
    - assert (Ei : i = 0%N \/ i = 1%N) by lia. destruct Ei as [->| ->]; rewrite ?H0, ?H1; destruct k; reflexivity. }
  rewrite E. destruct k; reflexivity.
Qed.
Lemma outline_point_ok q : outline_point exact q = dn (pixels q).
Proof.
  unfold outline_point, dn, pixels, exact. cbn [fst snd]. unfold xdiv. destruct (Req_EM_T 64 0) as [E|_]; [lra|].
  f_equal; f_equal. rewrite opp_IZR. lra.
Qed.

Definition read_as (x : Z * Z * kind) : vec2 * point_type := emb (pixels (fst x), snd x).

Lemma read_point_ok o cs i x : consists_of o cs -> nth_error (concat cs) i = Some x ->
  read_point exact o i = Ret (read_as x).
Proof.
  intros (Hp & Ht & _ & _) Hi. unfold read_point.
  rewrite Hp, nth_error_map, Hi. cbn [option_map].
  assert (H : exists t, nth_error (o_tags o) i = Some t /\ tag_means t (snd x)).
  { apply (map_nth_error snd) in Hi. revert i Hi. clear -Ht. induction Ht as [|t k ts ks Ht' _ IH]; intros [|i]; cbn [nth_error]; try discriminate.
    - intros [= <-]. eauto.
    - apply IH. }
  destruct H as (t & -> & Hm). rewrite (tag_ok _ _ Hm), outline_point_ok. reflexivity.
Qed.

Lemma forM_seq {A B} (f : nat -> outcome B) (g : A -> B) c : forall off, (forall i x, nth_error c i = Some x -> f (off + i)%nat = Ret (g x)) ->
  forM f (seq off (length c)) = Ret (map g c).
Proof.
  induction c as [|x c IH]; intros off H; [reflexivity|]. cbn [length seq forM].
  pose proof (H 0%nat x eq_refl) as H0. rewrite Nat.add_0_r in H0. rewrite H0. cbn [bind].
  rewrite (IH (S off)); [reflexivity|]. intros i y Hy. rewrite Nat.add_succ_comm. apply H. exact Hy.
Qed.

Lemma to_size_id z : (0 <= z < 2 ^ 64)%Z -> to_size z = z.
Proof. apply Z.mod_small. Qed.

Lemma read_contours_ok o cs : consists_of o cs -> Forall (fun c => c <> []) cs ->
  forall pre post, cs = pre ++ post ->
  read_contours exact o (Z.of_nat (length (concat pre))) (ends_from (Z.of_nat (length (concat pre))) post) = Ret (map (map read_as) post).
Proof.
  intros Ho Hne pre post. revert pre. induction post as [|c post IH]; intros pre E; [reflexivity|].
  cbn [ends_from read_contours map].
  assert (Hlen : (Z.of_nat (length (concat pre)) + Z.of_nat (length c) <= 2 ^ 15)%Z).
  { destruct Ho as (_ & _ & _ & Hl). subst cs. rewrite concat_app, app_length in Hl. cbn [concat] in Hl. rewrite app_length in Hl. lia. }
  assert (Hc : (1 <= length c)%nat).
  { rewrite E in Hne. apply Forall_app in Hne as [_ Hne]. inversion Hne; subst. destruct c; [easy|cbn; lia]. }
  assert (Hb : (Z.of_nat (length (concat pre)) + Z.of_nat (length c) < 2 ^ 64)%Z).
  { lia. }
  unfold read_contour.
  rewrite (to_size_id (Z.of_nat (length (concat pre)))) by lia.
  rewrite to_size_id by lia. rewrite Nat2Z.id.
  replace (Z.to_nat _) with (length c) by lia.
  rewrite (forM_seq _ read_as c).
  - cbn [bind]. specialize (IH (pre ++ [c])). rewrite <- app_assoc in IH. specialize (IH E).
    rewrite concat_app, app_length, Nat2Z.inj_add in IH. cbn [concat] in IH. rewrite app_nil_r in IH.
    replace (Z.of_nat (length (concat pre)) + Z.of_nat (length c) - 1 + 1)%Z with (Z.of_nat (length (concat pre)) + Z.of_nat (length c))%Z by lia.
    rewrite IH. reflexivity.
  - intros i x Hx. eapply read_point_ok; [exact Ho|]. subst cs. rewrite concat_app. cbn [concat].
    rewrite nth_error_app2 by lia. replace (length (concat pre) + i - length (concat pre))%nat with i by lia.
    rewrite nth_error_app1; [exact Hx|]. apply nth_error_Some. congruence.
Qed.

Lemma is_curve_nonempty l a segs : is_curve l a segs -> l <> [].
Proof.
  intros [[[Hn _] (ar & Hw)]|(c & m & -> & _)]; [|discriminate].
  destruct (written_last _ _ _ _ _ Hw Hn) as (_ & _ & _ & H). exact H.
Qed.

Lemma glyph_exact asserts o cs curves : consists_of o cs ->
  Forall2 (fun c cu => is_curve (in_pixels c) (fst cu) (snd cu)) cs curves ->
  exists ps, glyph_outline_path exact asserts o = Ret (concat ps) /\
    Forall2 (fun cu p => draws_curve (fst cu) (snd cu) p) curves ps.
Proof.
  intros Ho Hcs.
  assert (Hne : Forall (fun c => c <> []) cs).
  { clear -Hcs. induction Hcs as [|c cu cs curves H _ IH]; constructor; [|exact IH].
    apply is_curve_nonempty in H. intros ->. now apply H. }
  unfold glyph_outline_path. pose proof Ho as (_ & _ & He & _). rewrite He.
  pose proof (read_contours_ok o cs Ho Hne [] cs eq_refl) as Hr. cbn [concat length] in Hr.
  change (Z.of_nat 0) with 0%Z in Hr. rewrite Hr. cbn [bind]. clear -Hcs.
  assert (H : exists ps, forM (contour_path exact asserts) (map (map read_as) cs) = Ret ps /\
    Forall2 (fun cu p => draws_curve (fst cu) (snd cu) p) curves ps).
  { induction Hcs as [|c cu cs curves H _ (ps & IH & Hd)]; [exists []; split; [reflexivity|constructor]|].
    destruct (contour_ok asserts _ _ _ H) as (p & Hp & Hdp).
    cbn [map forM]. replace (map read_as c) with (map emb (in_pixels c)) by (unfold in_pixels; rewrite map_map; reflexivity).
    rewrite Hp, IH. cbn [bind]. exists (p :: ps). split; [reflexivity|now constructor]. }
  destruct H as (ps & -> & Hd). exists ps. split; [reflexivity|exact Hd].
Qed.

(* ---------------- Rounding ---------------- *)
(** A point whose coordinates are n/64 with |n| < 2^31. *)
Definition small_pt (q : Z * Z) : Prop := (Z.abs (fst q) < 2 ^ 31)%Z /\ (Z.abs (snd q) < 2 ^ 31)%Z.
Definition sixty_fourths (v : vec2) : Prop :=
  exists m n, (Z.abs m < 2 ^ 31)%Z /\ (Z.abs n < 2 ^ 31)%Z /\ v = mk_vec2 (Fin (IZR m / 64)) (Fin (IZR n / 64)).

Lemma frac64 (m : Z) : (Z.abs m < 2 ^ 53)%Z -> rnd64 (IZR m / 64) = IZR m / 64.
Proof. intros H. apply rnd64_id. replace (IZR m / 64) with (IZR m * bpow radix2 (-6)) by (cbn; lra). apply is64_int; [exact H|lia]. Qed.
Lemma frac128 (m : Z) : (Z.abs m < 2 ^ 53)%Z -> rnd64 (IZR m / 128) = IZR m / 128.
Proof. intros H. apply rnd64_id. replace (IZR m / 128) with (IZR m * bpow radix2 (-7)) by (cbn; lra). apply is64_int; [exact H|lia]. Qed.

Lemma outline_point_64 q : small_pt q -> outline_point rnd64 q = outline_point exact q /\ sixty_fourths (outline_point exact q).
Proof.
  intros [Hx Hy]. unfold outline_point, exact, xdiv. destruct (Req_EM_T 64 0) as [E|_]; [lra|].
  rewrite (rnd64_id (IZR (fst q))) by (apply is64_IZR; lia).
  rewrite (rnd64_id (IZR (- snd q))) by (apply is64_IZR; lia).
  rewrite !frac64 by lia. split; [reflexivity|]. exists (fst q), (- snd q)%Z. repeat split; lia.
Qed.
Lemma midpoint_64 a b : sixty_fourths a -> sixty_fourths b -> midpoint rnd64 a b = midpoint exact a b.
Proof.
  intros (m & n & Hm & Hn & ->) (m' & n' & Hm' & Hn' & ->). unfold midpoint, vmul, vadd, exact, xadd, xmul; cbn [vx vy].
  assert (E : forall x y, (Z.abs x < 2 ^ 31)%Z -> (Z.abs y < 2 ^ 31)%Z ->
    rnd64 (rnd64 (IZR x / 64 + IZR y / 64) * (1 / 2)) = (IZR x / 64 + IZR y / 64) * (1 / 2)).
  { intros x y Hx Hy. replace (IZR x / 64 + IZR y / 64) with (IZR (x + y) / 64) by (rewrite plus_IZR; lra).
    rewrite frac64 by lia. replace (IZR (x + y) / 64 * (1 / 2)) with (IZR (x + y) / 128) by lra. apply frac128; lia. }
  now rewrite !E.
Qed.

Lemma iv_64 c : Forall (fun x => sixty_fourths (fst x)) c -> insert_virtual rnd64 c = insert_virtual exact c.
Proof.
  induction c as [|x [|y r] IH]; intros H; [reflexivity|reflexivity|]. rewrite !iv_cons.
  inversion H as [|? ? H1 H2]; subst. inversion H2 as [|? ? H3 H4]; subst.
  rewrite (IH H2), (midpoint_64 _ _ H1 H3). reflexivity.
Qed.
Lemma last_in {A} (l : list A) q : l <> [] -> In (last l q) l.
Proof. induction l as [|x [|y r] IH]; [easy|now left|]. intros _. right. apply IH. discriminate. Qed.
Lemma contour_64 asserts c : Forall (fun x => sixty_fourths (fst x)) c -> contour_path rnd64 asserts c = contour_path exact asserts c.
Proof.
  intros H. destruct c as [|q r]; [reflexivity|]. unfold contour_path, resolve. rewrite (iv_64 _ H).
  assert (Hf : sixty_fourths (fst (front (insert_virtual exact (q :: r)) q))).
  { unfold front. rewrite hd_iv. now inversion H. }
  assert (Hb : sixty_fourths (fst (back (insert_virtual exact (q :: r)) q))).
  { unfold back. rewrite last_iv. rewrite Forall_forall in H. apply H, last_in. discriminate. }
  assert (E : start_with_virtual rnd64 (start_with_last (insert_virtual exact (q :: r)) q) q =
              start_with_virtual exact (start_with_last (insert_virtual exact (q :: r)) q) q).
  { unfold start_with_last. set (w := insert_virtual exact (q :: r)) in *.
    destruct (snd (front w q)) eqn:E1; destruct (snd (back w q)) eqn:E2; unfold start_with_virtual; rewrite ?E1, ?E2; try reflexivity.
    - unfold front at 1 3. cbn [hd]. rewrite E2. reflexivity.
    - now rewrite midpoint_64. }
  now rewrite E.
Qed.

Lemma forM_ext {A B} (f g : A -> outcome B) l : (forall x, In x l -> f x = g x) -> forM f l = forM g l.
Proof. induction l as [|x l IH]; intros H; [reflexivity|]. cbn [forM]. rewrite H by now left. rewrite IH; [reflexivity|]. intros y Hy. apply H. now right. Qed.
Lemma forM_all {A B} (f : A -> outcome B) (Q : B -> Prop) l r : (forall x b, f x = Ret b -> Q b) -> forM f l = Ret r -> Forall Q r.
Proof.
  revert r. induction l as [|x l IH]; intros r H; cbn [forM]; [intros [= <-]; constructor|].
  destruct (f x) eqn:E; try discriminate. cbn [bind]. destruct (forM f l) eqn:E2; try discriminate. cbn [bind].
  intros [= <-]. constructor; [eapply H; exact E|now apply IH].
Qed.

Lemma glyph_64 asserts o : Forall small_pt (o_points o) -> glyph_outline_path rnd64 asserts o = glyph_outline_path exact asserts o.
Proof.
  intros Hs.
  assert (Hp : forall i, read_point rnd64 o i = read_point exact o i).
  { intros i. unfold read_point. destruct (nth_error (o_points o) i) eqn:E; [|reflexivity].
    apply nth_error_In in E. rewrite Forall_forall in Hs. destruct (outline_point_64 _ (Hs _ E)) as [-> _]. reflexivity. }
  assert (Hq : forall i x, read_point exact o i = Ret x -> sixty_fourths (fst x)).
  { intros i x. unfold read_point. destruct (nth_error (o_points o) i) eqn:E; [|discriminate].
    destruct (nth_error (o_tags o) i); [|discriminate]. destruct (curve_tag n); [|discriminate]. intros [= <-]. cbn [fst].
    apply nth_error_In in E. rewrite Forall_forall in Hs. apply (outline_point_64 _ (Hs _ E)). }
  assert (Hc : forall b es, read_contours rnd64 o b es = read_contours exact o b es /\
    forall cs, read_contours exact o b es = Ret cs -> Forall (Forall (fun x => sixty_fourths (fst x))) cs).
  { intros b es. revert b. induction es as [|e es IH]; intros b; [split; [reflexivity|intros cs [= <-]; constructor]|].
    cbn [read_contours]. destruct (IH (e + 1)%Z) as [I1 I2].
    assert (E : read_contour rnd64 o b e = read_contour exact o b e) by (apply forM_ext; intros; apply Hp).
    rewrite E, I1. split; [reflexivity|]. intros cs.
    destruct (read_contour exact o b e) eqn:Er; try discriminate. cbn [bind].
    destruct (read_contours exact o (e + 1) es) eqn:Er2; try discriminate. cbn [bind]. intros [= <-].
    constructor; [|now apply I2]. eapply forM_all; [|exact Er]. intros i x. apply Hq. }
  unfold glyph_outline_path. destruct (Hc 0%Z (o_ends o)) as [H1 H2]. rewrite H1.
  destruct (read_contours exact o 0 (o_ends o)) eqn:E; try reflexivity. cbn [bind].
  specialize (H2 _ eq_refl). rewrite (forM_ext (contour_path rnd64 asserts) (contour_path exact asserts)); [reflexivity|].
  intros c Hin. apply contour_64. rewrite Forall_forall in H2. now apply H2.
Qed.

Theorem C94_glyph : forall asserts o cs curves,
  consists_of o cs -> Forall2 (fun c cu => is_curve (in_pixels c) (fst cu) (snd cu)) cs curves ->
  Forall (fun q => (Z.abs (fst q) < 2 ^ 31)%Z /\ (Z.abs (snd q) < 2 ^ 31)%Z) (o_points o) ->
  exists ps, glyph_outline_path rnd64 asserts o = Ret (concat ps) /\
    Forall2 (fun cu p => draws_curve (fst cu) (snd cu) p) curves ps.
Proof. intros asserts o cs curves Ho Hc Hs. rewrite (glyph_64 _ _ Hs). eapply glyph_exact; eassumption. Qed.

(** Whatever a TrueType font contains (no cubic control points, no empty contours), the
    glyph is drawn, in full. *)
Theorem C94_truetype_glyph : forall asserts o cs,
  consists_of o cs -> Forall (fun c => c <> [] /\ Forall (fun x => snd x <> CubicControl) c) cs ->
  Forall (fun q => (Z.abs (fst q) < 2 ^ 31)%Z /\ (Z.abs (snd q) < 2 ^ 31)%Z) (o_points o) ->
  exists curves ps, glyph_outline_path rnd64 asserts o = Ret (concat ps) /\
    Forall2 (fun c cu => is_curve (in_pixels c) (fst cu) (snd cu)) cs curves /\
    Forall2 (fun cu p => draws_curve (fst cu) (snd cu) p) curves ps.
Proof.
  intros asserts o cs Ho Hc Hs.
  assert (H : exists curves, Forall2 (fun c cu => is_curve (in_pixels c) (fst cu) (snd cu)) cs curves).
  { clear -Hc. induction Hc as [|c cs [Hn Hk] _ (curves & IH)]; [exists []; constructor|].
    destruct (C94_truetype (in_pixels c)) as (a & segs & H).
    - destruct c; [easy|discriminate].
    - unfold in_pixels. apply Forall_map. exact Hk.
    - exists ((a, segs) :: curves). constructor; [exact H|exact IH]. }
  destruct H as (curves & H). destruct (C94_glyph asserts o cs curves Ho H Hs) as (ps & Hp & Hd).
  exists curves, ps. auto.
Qed.

(** A contour has one meaning: two readings as a curve give the same path up to the idle line,
    hence the same start and the same segments. *)
Lemma command_inj s t : command s = command t -> s = t.
Proof.
  destruct s, t; cbn; try discriminate; unfold P; intros [=]; f_equal; apply injective_projections; assumption.
Qed.

(* ---------------- What is not checked ---------------- *)
Definition cubics (l : list (pt * kind)) : nat := length (filter (fun x => match snd x with CubicControl => true | _ => false end) l).
Lemma cubics_app l m : cubics (l ++ m) = (cubics l + cubics m)%nat.
Proof. unfold cubics. now rewrite filter_app, app_length. Qed.
Lemma written_even before a segs after l : written before a segs after l -> Nat.even (cubics l) = true.
Proof.
  induction 1 as [before a|before a s segs after l Hw IH|before a s segs after l Hi Hw IH]; [reflexivity| |].
  - change (cubics ((a, OnCurve) :: controls s ++ l)) with (cubics (controls s ++ l)).
    rewrite cubics_app. destruct s; cbn; exact IH.
  - rewrite cubics_app. destruct s; cbn; exact IH.
Qed.
Lemma curve_even l a segs : is_curve l a segs -> Nat.even (cubics l) = true.
Proof.
  intros [[_ (ar & Hw)]|(c & m & -> & [_ (ar & Hw)])]; [eapply written_even; exact Hw|].
  apply written_even in Hw. rewrite app_comm_cons, cubics_app. cbn [cubics filter length snd] in *. rewrite Nat.add_0_r. exact Hw.
Qed.

(** A contour that is no curve (it has a lone cubic control point) is accepted, and drawn only up to that
    point. *)
Theorem C94_broken_contour_refuted : forall asserts (a b c e : pt) s segs after l,
  written None a (s :: segs) after ((a, OnCurve) :: l) -> last (map stop_of (s :: segs)) a = b ->
  let broken := (a, OnCurve) :: l ++ [(b, OnCurve); (c, CubicControl); (e, OnCurve)] in
  (forall a' segs', ~ is_curve broken a' segs') /\
  contour_path exact asserts (map (fun x => (mk_vec2 (Fin (fst (fst x))) (Fin (- snd (fst x))),
      match snd x with OnCurve => On | ConicControl => Off2 | CubicControl => Off3 end)) broken) =
    Ret (MoveTo (P a) :: map command (s :: segs) ++ [Close]).
Proof.
  intros asserts a b c e s segs after l Hw Hb broken. split.
  - intros a' segs' H. apply curve_even in H. apply written_even in Hw. unfold broken in H.
    rewrite app_comm_cons, cubics_app in H. rewrite Nat.even_add in H. rewrite Hw in H. discriminate.
  - change (map _ broken) with (map emb broken).
    assert (Hx : written None a ((s :: segs) ++ [Straight c]) None ((a, OnCurve) :: l ++ [(b, OnCurve)])).
    { rewrite app_comm_cons. remember (s :: segs) as ss eqn:E. remember ((a, OnCurve) :: l) as ll. clear -Hw Hb.
      assert (G : forall bf, written bf a ss after ll -> last (map stop_of ss) a = b -> written bf a (ss ++ [Straight c]) None (ll ++ [(b, OnCurve)])).
      { clear Hw Hb. intros bf. induction 1 as [before a|before a s segs after l Hw IH|before a s segs after l Hi Hw IH]; intros Hl; cbn [app].
        - cbn in Hl. subst b. apply (written_all before a (Straight c) [] None []). constructor.
        - rewrite <- app_assoc.
          apply (written_all before a s (segs ++ [Straight c])). apply IH.
          cbn [map] in Hl. rewrite last_cons in Hl. exact Hl.
        - rewrite <- app_assoc. apply (written_implied before a s (segs ++ [Straight c])); [exact Hi|]. apply IH.
          cbn [map] in Hl. rewrite last_cons in Hl. exact Hl. }
      now apply G. }
    pose proof (iv_written _ _ _ _ _ Hx (a, OnCurve) ltac:(cbn; discriminate)) as Hv.
    assert (Hs : forall w : contour, insert_virtual exact (w ++ [(dn b, On); (dn c, Off3); (dn e, On)]) = insert_virtual exact (w ++ [(dn b, On)]) ++ [(dn c, Off3); (dn e, On)]).
    { clear. intros w. induction w as [|x [|y r] IH]; [reflexivity|cbn [app]; rewrite !iv_on; reflexivity|].
      cbn [app] in *. rewrite !iv_cons. rewrite IH. destruct (snd x), (snd y); reflexivity. }
    assert (Hv2 : insert_virtual exact (map emb broken) = map emb (full a ((s :: segs) ++ [Straight c])) ++ [(dn c, Off3); (dn e, On)]).
    { unfold broken. rewrite app_comm_cons, emb_app. cbn [map]. change (emb (b, OnCurve)) with (dn b, On). change (emb (c, CubicControl)) with (dn c, Off3).
      change (emb (e, OnCurve)) with (dn e, On). change (emb (a, OnCurve) :: map emb l) with (map emb ((a, OnCurve) :: l)). rewrite Hs. f_equal.
      change [(dn b, On)] with (map emb [(b, OnCurve)]). rewrite <- emb_app. cbn [app].
      cbn [map] in *. change (emb (a, OnCurve)) with (dn a, On) in *. rewrite iv_on' in Hv. apply (f_equal (@tl _)) in Hv. exact Hv. }
    assert (Hfull : full a ((s :: segs) ++ [Straight c]) = full a (s :: segs) ++ [(b, OnCurve)]).
    { revert Hb. generalize (s :: segs) as ss. clear. intros ss. revert a. induction ss as [|s ss IH]; intros a Hl; [cbn in *; now subst|].
      cbn [app full]. cbn [map] in Hl. rewrite last_cons in Hl. rewrite (IH _ Hl). now rewrite app_assoc. }
    rewrite Hfull, emb_app, <- app_assoc in Hv2. cbn [map app] in Hv2. change (emb (b, OnCurve)) with (dn b, On) in Hv2.
    change (map emb broken) with (emb (a, OnCurve) :: map emb (l ++ [(b, OnCurve); (c, CubicControl); (e, OnCurve)])).
    unfold contour_path, resolve. change (emb (a, OnCurve) :: map emb (l ++ [(b, OnCurve); (c, CubicControl); (e, OnCurve)])) with (map emb broken).
    rewrite Hv2. cbn [full map app]. change (emb (a, OnCurve)) with (dn a, On).
    unfold start_with_virtual, start_with_last, front, back. cbn [hd snd fst app]. rewrite up_dn. do 2 f_equal.
    pose proof (segs_full a (s :: segs) b ([(dn c, Off3); (dn e, On)] ++ [(dn a, On)]) Hb) as H2.
    cbn [full map app] in H2. change (emb (a, OnCurve)) with (dn a, On) in H2. rewrite <- app_assoc.
    cbn [app]. cbn [map] in H2. rewrite H2. cbn [segments]. rewrite app_nil_r. reflexivity.
Qed.

(** A contour whose list begins with a cubic control point ends the process, or (without assertions) is
    drawn as nothing but a point. *)
Theorem C94_cubic_start_refuted : forall (q : vec2) r,
  contour_path exact true ((q, Off3) :: r) = UB /\
  contour_path exact false ((q, Off3) :: r) = Ret [MoveTo (up q); Close].
Proof.
  intros q r. unfold contour_path, resolve, start_with_virtual, start_with_last, front, back.
  rewrite !hd_iv. cbn [snd]. rewrite !hd_iv. cbn [snd].
  destruct (iv_nonempty exact (q, Off3) r) as [t ->]. cbn [hd app snd fst].
  split; [reflexivity|]. destruct t as [|[? []] ?]; reflexivity.
Qed.

(** An unknown tag or an empty contour is an error, nothing is drawn. *)
Theorem C94_unknown_tag : forall asserts o i e r t,
  o_ends o = e :: r -> (0 <= e < 2 ^ 15)%Z -> (Z.of_nat i <= e)%Z ->
  (forall j, (j < i)%nat -> exists q t', nth_error (o_points o) j = Some q /\ nth_error (o_tags o) j = Some t' /\ exists k, tag_means t' k) ->
  (exists q, nth_error (o_points o) i = Some q) ->
  nth_error (o_tags o) i = Some t -> N.testbit t 0 = true -> N.testbit t 1 = true ->
  glyph_outline_path rnd64 asserts o = Err.
Proof.
  intros asserts o i e r t He Hr Hi Hb [q Hq] Ht T0 T1. unfold glyph_outline_path. rewrite He. cbn [read_contours].
  assert (E : read_contour rnd64 o 0 e = Err).
  { unfold read_contour. rewrite !to_size_id by lia. rewrite Z.sub_0_r. change (Z.to_nat 0) with 0%nat.
    assert (Hbad : read_point rnd64 o i = Err).
    { unfold read_point. rewrite Hq, Ht. unfold curve_tag. replace (N.land t 3) with 3%N; [reflexivity|].
      apply N.bits_inj. intros k. rewrite N.land_spec. destruct (N.le_gt_cases 2 k) as [Hk|Hk].
      - rewrite (N.bits_above_log2 3 k) by (cbn; lia). now rewrite andb_false_r.
      - assert (Ei : k = 0%N \/ k = 1%N) by lia. destruct Ei as [->| ->]; rewrite ?T0, ?T1; reflexivity. }
    assert (Hgood : forall j, (j < i)%nat -> exists v, read_point rnd64 o j = Ret v).
    { intros j Hj. destruct (Hb j Hj) as (q' & t' & E1 & E2 & k & E3). unfold read_point. rewrite E1, E2, (tag_ok _ _ E3). eauto. }
    assert (Hlen : exists n, Z.to_nat (e + 1) = (i + S n)%nat) by (exists (Z.to_nat e - i)%nat; lia).
    destruct Hlen as [n ->]. clear -Hbad Hgood.
    assert (G : forall m off, (off + m = i)%nat -> forM (read_point rnd64 o) (seq off (m + S n)) = Err).
    { induction m as [|m IH]; intros off E.
      - cbn [Nat.add seq forM]. rewrite Nat.add_0_r in E. subst off. rewrite Hbad. reflexivity.
      - cbn [Nat.add seq forM]. destruct (Hgood off ltac:(lia)) as [v ->]. cbn [bind]. rewrite IH by lia. reflexivity. }
    apply G. lia. }
  rewrite E. reflexivity.
Qed.

(* ---------------- A case: a round shape in the TrueType manner, and one with a cubic curve ---------------- *)
Definition ring : font_contour :=
  [((0, 0)%Z, ConicControl); ((0, 64)%Z, ConicControl); ((64, 64)%Z, ConicControl); ((64, 0)%Z, ConicControl)].
Definition leaf : font_contour :=
  [((0, 0)%Z, OnCurve); ((0, 32)%Z, CubicControl); ((32, 64)%Z, CubicControl); ((64, 64)%Z, OnCurve); ((64, 0)%Z, ConicControl)].
Definition glyph_example : outline :=
  mk_outline (map fst (ring ++ leaf)) [0; 0; 4; 0; 1; 2; 2; 5; 0]%N [3; 8]%Z.

Example glyph_example_consists : consists_of glyph_example [ring; leaf].
Proof.
  split; [reflexivity|]. split; [|split; [reflexivity|cbn; lia]].
  cbn. repeat constructor.
Qed.
Example glyph_example_curves :
  Forall2 (fun c cu => is_curve (in_pixels c) (fst cu) (snd cu)) [ring; leaf]
    [((1/2, 0), [Conic (0, 0) (0, 1/2); Conic (0, 1) (1/2, 1); Conic (1, 1) (1, 1/2); Conic (1, 0) (1/2, 0)]);
     ((0, 0), [Cubic (0, 1/2) (1/2, 1) (1, 1); Conic (1, 0) (0, 0)])].
Proof.
  assert (E0 : 0 / 64 = 0) by lra. assert (E1 : 64 / 64 = 1) by lra. assert (E2 : 32 / 64 = 1 / 2) by lra.
  constructor; [|constructor; [|constructor]]; left; (split; [split; [discriminate|reflexivity]|]);
    unfold in_pixels, ring, leaf, pixels; cbn [map fst snd]; rewrite ?E0, ?E1, ?E2.
  - exists (Some (1, 0)).
    eapply (written_implied _ _ (Conic (0, 0) (0, 1/2))); [exists (1, 0), (0, 0); repeat split; cbn; lra|].
    eapply (written_implied _ _ (Conic (0, 1) (1/2, 1))); [exists (0, 0), (0, 1); repeat split; cbn; lra|].
    eapply (written_implied _ _ (Conic (1, 1) (1, 1/2))); [exists (0, 1), (1, 1); repeat split; cbn; lra|].
    eapply (written_implied _ _ (Conic (1, 0) (1/2, 0))); [exists (1, 1), (1, 0); repeat split; cbn; lra|]. constructor.
  - exists (Some (1, 0)). apply (written_all _ _ (Cubic (0, 1/2) (1/2, 1) (1, 1))). apply (written_all _ _ (Conic (1, 0) (0, 0))). constructor.
Qed.
Example glyph_example_drawn : exists ps, glyph_outline_path rnd64 true glyph_example = Ret (concat ps) /\ length ps = 2%nat.
Proof.
  destruct (C94_glyph true _ _ _ glyph_example_consists glyph_example_curves) as (ps & H & D).
  - cbn. repeat constructor; cbn; lia.
  - exists ps. split; [exact H|]. inversion D as [|? ? ? ? _ D1]; subst. inversion D1 as [|? ? ? ? _ D2]; subst. inversion D2. reflexivity.
Qed.

Print Assumptions C94_truetype.
Print Assumptions C94_glyph.
Print Assumptions C94_truetype_glyph.
Print Assumptions C94_broken_contour_refuted.
Print Assumptions C94_cubic_start_refuted.
Print Assumptions C94_unknown_tag.
