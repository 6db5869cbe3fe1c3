(** Placing data on usable scales, and converting colours and sizes, ends in a defined way. *)
From Coq Require Import Reals Lra Lia.
From Verif Require Import Base Num Str_Model Sexpr_Model Dispatch_Model Csv_Model Data_Model Data_Spec Data_Proofs Geojson_Model Scale_Model
  Units_Model Color_Model Color_Proofs Color_Props Geo_Model Svg_Model Cmd_Model Cmd_Spec Cmd_Proofs Style_Model Plot_Model Safe_Spec Safe_Proofs.
Local Open Scope R_scope.

Section Placing.
  Variable W : world.
  Hypothesis CW : counts W.

  Lemma INR_counts n : (Z.of_nat n <= 2 ^ 53)%Z -> w_d W (INR n) = INR n.
  Proof. intro H. rewrite INR_IZR_INZ. apply CW. lia. Qed.
  Lemma d_categorical s i : s_categories s <> [] -> (Z.of_nat (length (s_categories s)) < 2 ^ 53)%Z ->
    defined (translate_categorical (w_d W) s i).
  Proof.
    intros N L. unfold translate_categorical. rewrite INR_counts by lia.
    assert (H : (1 <= length (s_categories s))%nat) by (destruct (s_categories s); [congruence|cbn; lia]).
    destruct (xlt _ (Fin 0)) eqn:X; [|apply def_ret]. exfalso. cbn [xsub xadd xneg] in X. apply xlt_fin in X.
    rewrite INR_IZR_INZ in X. rewrite <- opp_IZR, <- plus_IZR in X. change (Z.opp 1) with (-1)%Z in X. rewrite CW in X by lia.
    apply lt_IZR in X. lia.
  Qed.
  Lemma d_translate_count s n : usable s -> (Z.of_nat n < 2 ^ 53)%Z -> defined (scale_translate (w_d W) (w_f W) s (Fin (w_d W (INR n)))).
  Proof.
    intros U H. unfold scale_translate. destruct (s_kind s) eqn:KD; try apply def_ret. destruct (U KD) as (N & L & _).
    rewrite INR_counts by lia. unfold to_unsigned. rewrite INR_IZR_INZ, Ztrunc_IZR.
    destruct (_ && _)%bool eqn:B; [apply d_categorical; assumption|].
    apply andb_false_iff in B. destruct B as [B|B]; [apply Z.leb_gt in B|apply Z.ltb_ge in B]; lia.
  Qed.
  Lemma map_loop_counts s ts : forall vs vs' o, map_loop (w_d W) s ts vs = (vs', o) ->
    Forall (fun q : str * nat => (Z.of_nat (snd q) < 2 ^ 53)%Z) (s_cmap s) ->
    Forall (fun v => exists n, v = Fin (w_d W (INR n)) /\ (Z.of_nat n < 2 ^ 53)%Z) vs ->
    defined o /\ Forall (fun v => exists n, v = Fin (w_d W (INR n)) /\ (Z.of_nat n < 2 ^ 53)%Z) vs'.
  Proof.
    induction ts as [|t ts IH]; intros vs vs' o H C V; cbn [map_loop] in H.
    { injection H as <- <-. split; [apply def_ret|exact V]. }
    destruct (assoc t (s_cmap s)) as [i|] eqn:A.
    - eapply IH; [exact H|exact C|]. apply Forall_app. split; [exact V|]. constructor; [|constructor]. exists i. split; [reflexivity|].
      exact (assoc_snd (fun n : nat => (Z.of_nat n < 2 ^ 53)%Z) t (s_cmap s) i C A).
    - injection H as <- <-. split; [apply def_err|exact V].
  Qed.
  Lemma d_translatev s vs : (forall v, In v vs -> defined (scale_translate (w_d W) (w_f W) s v)) -> defined (translatev (w_d W) (w_f W) s vs).
  Proof.
    induction vs as [|v vs IH]; intro H; cbn [translatev]; [apply def_ret|]. apply def_bind; [apply H; now left|]. intros.
    apply def_bind; [apply IH; intros; apply H; now right|]. intros; apply def_ret.
  Qed.
  Lemma d_text b vs : wf b -> defined (databuf_to_text xr (w_show W) b vs).
  Proof. intros [l R]. unfold databuf_to_text. erewrite repr_text by exact R. apply def_ret. Qed.
  Lemma d_numbers (pf : str -> xr) b vs : wf b -> defined (databuf_to_numbers xr pf b vs).
  Proof. intros [l R]. unfold databuf_to_numbers. erewrite repr_numbers by exact R. apply def_ret. Qed.
  Lemma d_check b : wf b -> defined (check_numeric (w_is_number W) b (index xr b)).
  Proof.
    intros [l R]. unfold repr in R. induction R as [|[ty p] a ix l EN R IH]; cbn [check_numeric]; [apply def_ret|].
    destruct ty, a; cbn in EN; try contradiction; [exact IH|]. rewrite EN. destruct (w_is_number W _); [exact IH|apply def_err].
  Qed.
  Lemma d_to_unit s b : usable s -> wf b -> defined (to_unit W s b).
  Proof.
    intros U F. unfold to_unit, translatev_buf. destruct (s_kind s) eqn:KD.
    - apply def_bind; [now apply d_check|]. intros _ _. apply def_bind; [now apply d_numbers|]. intros vs _.
      apply d_translatev. intros. unfold scale_translate. rewrite KD. apply def_ret.
    - apply def_bind; [now apply d_check|]. intros _ _. apply def_bind; [now apply d_numbers|]. intros vs _.
      apply d_translatev. intros. unfold scale_translate. rewrite KD. apply def_ret.
    - unfold map_categories. destruct (d_text b [] F) as [T1 T2]. destruct (databuf_to_text _ _ b []) as [ts| | | |]; try contradiction; try apply def_err; try apply def_throw.
      destruct (map_loop _ s ts []) as [vs o] eqn:M. destruct (U KD) as (N & L & C).
      destruct (map_loop_counts s ts [] vs o M C (Forall_nil _)) as [[O1 O2] V].
      destruct o; try contradiction; try apply def_err; try apply def_throw.
      apply d_translatev. intros v I. rewrite Forall_forall in V. destruct (V v I) as (n & -> & H). now apply d_translate_count.
  Qed.
  Lemma d_fit s b : wf b -> defined (fit_data W s b).
  Proof.
    intros F. unfold fit_data, fit_buf. destruct (s_kind s) eqn:KD.
    - apply def_bind; [now apply d_numbers|]. intros; apply def_ret.
    - apply def_bind; [now apply d_numbers|]. intros; apply def_ret.
    - unfold map_categories. destruct (d_text b [] F) as [T1 T2]. destruct (databuf_to_text _ _ b []) as [ts| | | |]; try contradiction; try apply def_err; try apply def_throw.
      assert (G : forall ts vs, defined (snd (map_loop (w_d W) s ts vs))).
      { induction ts0 as [|t ts0 IH]; intro vs; cbn [map_loop]; [apply def_ret|]. destruct (assoc _ _); [apply IH|apply def_err]. }
      specialize (G ts []). destruct (map_loop _ s ts []) as [vs o]. cbn [snd] in G. destruct G as [O1 O2].
      destruct o; try contradiction; try apply def_err; try apply def_throw. apply def_ret.
  Qed.
  Lemma d_fit_x b p : wf b -> defined (fit_x W b p).
  Proof. intro. unfold fit_x. apply def_bind; [now apply d_fit|]. intros; apply def_ret. Qed.
  Lemma d_fit_y b p : wf b -> defined (fit_y W b p).
  Proof. intro. unfold fit_y. apply def_bind; [now apply d_fit|]. intros; apply def_ret. Qed.
  Lemma d_magnitudes s b : wf b -> defined (magnitudes W s b).
  Proof. intro. unfold magnitudes, translate_magnitudev. apply def_bind; [now apply d_numbers|]. intros; apply def_ret. Qed.
  (** Zero, the base of bars and areas. *)
  Lemma d_translate_zero s : usable s -> defined (scale_translate (w_d W) (w_f W) s (Fin 0)).
  Proof.
    intro U. assert (X : Fin 0 = Fin (w_d W (INR 0))) by (rewrite INR_counts by lia; reflexivity).
    rewrite X. apply d_translate_count; [exact U|lia].
  Qed.
End Placing.

(** The converters. *)
Lemma upper_bound_le l v : (upper_bound l v <= length l)%nat.
Proof. induction l as [|a l IH]; cbn [upper_bound length]; [lia|]. destruct (xlt _ _); lia. Qed.
Lemma d_steps stod l v : defined (steps stod l v).
Proof.
  unfold steps. destruct l as [|a l]; [apply def_ret|]. destruct (stod v) as [[x ?]|]; [|apply def_err].
  pose proof (upper_bound_le (a :: l) (clamp01 x)) as H. destruct (upper_bound _ _) as [|j] eqn:U; [apply def_ret|].
  destruct (nth_error (a :: l) j) as [[? c]|] eqn:X; [apply def_ret|]. apply nth_error_None in X. lia.
Qed.
Lemma lower_bound_lt l v : (exists key c, In (key, c) l /\ xlt key v = false) -> (lower_bound l v < length l)%nat.
Proof.
  induction l as [|a l IH]; intros (key & c & I & L); [destruct I|]. cbn [lower_bound length].
  destruct (xlt (fst a) v) eqn:X; [|lia]. destruct I as [->|I]; [cbn [fst] in X; congruence|].
  assert ((lower_bound l v < length l)%nat) by (apply IH; eauto). lia.
Qed.
Lemma clamp_below v key : xle (Fin 1) key = true -> xlt key (clamp01 v) = false.
Proof.
  intro H. unfold clamp01. destruct (xlt v (Fin 0)) eqn:A; [|destruct (xlt (Fin 1) v) eqn:B].
  - destruct key; cbn in *; try discriminate; try reflexivity. destruct (Rle_dec 1 r); [|discriminate]. destruct (Rlt_dec r 0); [lra|reflexivity].
  - destruct key; cbn in *; try discriminate; try reflexivity. destruct (Rle_dec 1 r); [|discriminate]. destruct (Rlt_dec r 1); [lra|reflexivity].
  - destruct key, v; cbn in *; try discriminate; try reflexivity.
    repeat (match goal with |- context [Rlt_dec ?x ?y] => destruct (Rlt_dec x y) | H : context [Rlt_dec ?x ?y] |- _ => destruct (Rlt_dec x y)
      | H : context [Rle_dec ?x ?y] |- _ => destruct (Rle_dec x y) end); try discriminate; try reflexivity; lra.
Qed.
Lemma d_gradient d stod l v : l = [] \/ (exists key c, In (key, c) l /\ xle (Fin 1) key = true) -> defined (gradient d stod l v).
Proof.
  intro H. unfold gradient. destruct l as [|a l]; [apply def_ret|]. destruct (stod v) as [[x ?]|]; [|apply def_err].
  destruct H as [H|(key & c & I & L)]; [discriminate|].
  assert (B : (lower_bound (a :: l) (clamp01 x) < length (a :: l))%nat).
  { apply lower_bound_lt. exists key, c. split; [exact I|]. now apply clamp_below. }
  destruct (nth_error (a :: l) _) as [[l1 c1]|] eqn:X; [|apply nth_error_None in X; lia].
  destruct (match lower_bound _ _ with O => _ | S j => _ end) as [l0 c0]. destruct (xle l1 (clamp01 x)); apply def_ret.
Qed.
