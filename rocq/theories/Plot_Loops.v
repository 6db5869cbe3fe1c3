From Coq Require Import Reals Lra.
From Verif Require Import Base Num Sexpr_Model Dispatch_Model Dispatch_Spec Data_Model Data_Spec Data_Proofs Scale_Model Scale_Spec Scale_Proofs Scale_Proofs4
  Units_Model Color_Model Geo_Model Svg_Model Geojson_Model Cmd_Model Cmd_Spec Cmd_Proofs Style_Model Plot_Model Plot_Spec Plot_Proofs.
Local Open Scope R_scope.

Lemma loopN {A B} (l : list A) n (g : nat -> outcome (list B)) (h : nat -> A -> outcome (list B)) :
  n = length l -> (forall i a, nth_error l i = Some a -> g i = h i a) ->
  draw_each g (seq 0 n) = draw_each (fun ia => h (fst ia) (snd ia)) (numbered l).
Proof.
  intros -> H. apply draw_each_ext. apply numbered_Forall2. intros i a X. exact (H i a X).
Qed.
Lemma loopM {A B} (l : list A) n (g : nat -> outcome B) (h : A -> outcome B) :
  n = length l -> (forall i a, nth_error l i = Some a -> g i = h a) -> forM g (seq 0 n) = forM h l.
Proof.
  intros -> H. transitivity (forM (fun ia => h (snd ia)) (numbered l)).
  - apply forM_ext. apply numbered_Forall2. intros i a X. exact (H i a X).
  - rewrite <- (numbered_map l) at 2. induction (numbered l) as [|ia r IH]; cbn [forM map]; [reflexivity|]. now rewrite IH.
Qed.
Lemma loopM_rev {A B} (l : list A) n (g : nat -> outcome B) (h : A -> B) :
  n = length l -> (forall i a, nth_error l i = Some a -> g i = Ret (h a)) ->
  forM g (rev (seq 0 n)) = Ret (rev (map h l)).
Proof.
  intros -> H.
  assert (F : Forall2 (fun i b => g i = Ret b) (seq 0 (length l)) (map h l)).
  { apply forM_ok. rewrite (loopM l _ g (fun a => Ret (h a)) eq_refl H). apply forM_ret. }
  apply forM_ok. clear H. revert F. generalize (seq 0 (length l)), (map h l). clear. intros s m F.
  induction F as [|i b s m H F IH]; [constructor|]. cbn [rev]. apply Forall2_app; auto.
Qed.
Lemma cycle_turn {A} (l : list A) i x : cycle l i x = turn l i x.
Proof. destruct l; [|reflexivity]. unfold turn. cbn [length]. now destruct (i mod 0). Qed.
Lemma at_some {A} (l : list A) i a : nth_error l i = Some a -> at_ l i = Ret a.
Proof. intro H. unfold at_. now rewrite H. Qed.
Lemma drawn_of {A} (g : nat -> A -> outcome (list draw_command)) l out :
  draw_each (fun ia => g (fst ia) (snd ia)) (numbered l) = Ret out -> drawn g l out.
Proof. apply draw_each_drawn. Qed.
Lemma loop_drawn {A} (h : nat -> A -> outcome (list draw_command)) (l : list A) (g : nat -> outcome (list draw_command)) n out :
  draw_each g (seq 0 n) = Ret out -> n = length l -> (forall i a, nth_error l i = Some a -> g i = h i a) -> drawn h l out.
Proof. intros H L N. apply drawn_of. rewrite <- H. symmetry. now apply loopN. Qed.
Lemma drawn_map {A B} (g : nat -> B -> outcome (list draw_command)) (h : A -> B) l out :
  drawn (fun i a => g i (h a)) l out <-> drawn g (map h l) out.
Proof.
  assert (N : forall k, combine (seq k (length (map h l))) (map h l) = map (fun ia => (fst ia, h (snd ia))) (combine (seq k (length l)) l)).
  { rewrite map_length. induction l as [|a l IH]; intro k; cbn [length seq combine map]; [reflexivity|]. now rewrite IH. }
  assert (F : forall (nl : list (nat * A)) parts, Forall2 (fun ia part => g (fst ia) (h (snd ia)) = Ret part) nl parts <->
            Forall2 (fun ia part => g (fst ia) (snd ia) = Ret part) (map (fun ia => (fst ia, h (snd ia))) nl) parts).
  { induction nl as [|ia nl IH]; intro parts; cbn [map]; split; intro X; inversion X; subst; constructor; auto; now apply IH. }
  unfold drawn, numbered. rewrite N. split; intros (parts & X & ->); exists parts; (split; [|reflexivity]); now apply F.
Qed.
(** One shape per element. *)
Lemma drawn_one {A} (g : nat -> A -> draw_command) l out :
  drawn (fun i a => Ret [g i a]) l out <-> out = map (fun ia => g (fst ia) (snd ia)) (numbered l).
Proof.
  unfold drawn. generalize (numbered l) as nl. clear l. intro nl. revert out.
  induction nl as [|ia nl IH]; intro out; cbn [map]; split.
  - intros (parts & F & ->). inversion F. reflexivity.
  - intros ->. exists []. split; [constructor|reflexivity].
  - intros (parts & F & ->). inversion F as [|? part ? ps H F']; subst. injection H as <-. cbn. f_equal. apply IH. eauto.
  - intros ->. destruct (proj2 (IH _) eq_refl) as (parts & F & E). exists ([g (fst ia) (snd ia)] :: parts).
    split; [now constructor|]. cbn. now rewrite <- E.
Qed.
Lemma colors_read_of W m cols : colors_of W m = Ret cols -> colors_read W m cols.
Proof.
  intros H. apply forM_ok in H. unfold colors_read. induction H as [|t c l l' H _ IH]; constructor; [|exact IH].
  unfold convert_color in H. destruct (m_cmap m); [exact H|].
  destruct (parse (w_f W) t black) as [[[] c']| | | |]; cbn [bind] in H; try discriminate. congruence.
Qed.
Lemma sizes_read_of W m szs : sizes_of W m = Ret szs -> sizes_read W m szs.
Proof.
  intros H. apply forM_ok in H. unfold sizes_read. induction H as [|t c l l' H _ IH]; constructor; [|exact IH].
  unfold convert_size in H. destruct (m_smap m) as [f|]; [destruct (f t) eqn:E|destruct (parse_measure (w_d W) (w_stod W) t) eqn:E];
    cbn [bind] in H; try discriminate; injection H as <-; eauto.
Qed.
Lemma nth_combine3 {A B C} (a : list A) (b : list B) (c : list C) i x y z :
  nth_error (combine a (combine b c)) i = Some (x, (y, z)) <->
  nth_error a i = Some x /\ nth_error b i = Some y /\ nth_error c i = Some z.
Proof. rewrite nth_combine, nth_combine. tauto. Qed.

(** The base line. *)
Lemma base_ok W s low z n lows : to_unit W s low = Ret lows -> scale_translate (w_d W) (w_f W) s (Fin 0) = Ret z ->
  (databuf_len xr low = 0 \/ databuf_len xr low = n)%nat ->
  exists bases, base_line W s low n bases /\ length bases = n /\
    forall i, (i < n)%nat -> base_at (clamp01 z) lows i = at_ bases i.
Proof.
  intros U Z L. pose proof (to_unit_length W _ _ _ U) as LU. unfold base_line.
  destruct (databuf_len xr low =? 0)%nat eqn:E.
  - apply Nat.eqb_eq in E. exists (repeat (clamp01 z) n). split; [eauto|]. split; [apply repeat_length|].
    intros i I. destruct lows; [|cbn in LU; lia]. cbn [base_at]. symmetry. apply at_some.
    rewrite (nth_error_nth' _ (clamp01 z)) by (now rewrite repeat_length). now rewrite nth_repeat.
  - apply Nat.eqb_neq in E. exists lows. split; [exact U|]. split; [lia|]. intros i I.
    destruct lows; [cbn in LU; lia|reflexivity].
Qed.

(** Columns of numbers on a linear axis, without rounding. *)
Lemma holds_len W b vs : holds W b vs -> databuf_len xr b = length vs.
Proof.
  intros (cells & R & M & _). unfold databuf_len. rewrite (Forall2_length _ _ _ R).
  rewrite <- (map_length (as_num xr (parse_f64 (w_stod W)))), M. apply map_length.
Qed.
Lemma check_numeric_ok W b : forall ix cells, Forall2 (entry xr b) ix cells ->
  Forall (fun c => match c with AddText t => w_is_number W t = true | AddNum _ => True end) cells ->
  check_numeric (w_is_number W) b ix = Ret tt.
Proof.
  induction 1 as [|[[|] pos] [v|t] ix cells X F IH]; intro N; inversion N; subst; cbn [check_numeric]; try contradiction; auto.
  cbn [entry] in X. rewrite X, H1. auto.
Qed.
Lemma holds_numbers W b vs : holds W b vs ->
  databuf_to_numbers xr (parse_f64 (w_stod W)) b [] = Ret (map Fin vs).
Proof.
  intros (cells & R & M & _). unfold databuf_to_numbers. rewrite (repr_numbers xr _ b _ cells [] R). cbn [app]. now rewrite M.
Qed.
Lemma to_unit_numbers W s b vs : holds W b vs -> s_kind s <> Categorical ->
  to_unit W s b = translatev (w_d W) (w_f W) s (map Fin vs).
Proof.
  intros H K. pose proof (holds_numbers W b vs H) as N. destruct H as (cells & R & M & T).
  unfold to_unit, translatev_buf. destruct (s_kind s); try congruence; rewrite (check_numeric_ok W b _ _ R T); cbn [bind]; now rewrite N.
Qed.
Lemma to_unit_linear W s b vs lo hi : exact_world W -> holds W b vs -> linear_over s lo hi ->
  to_unit W s b = Ret (map (fun v => Fin (unit_pos (s_inverted s) lo hi v)) vs).
Proof.
  intros [D F] H L. rewrite (to_unit_numbers W s b vs H) by (destruct L as (K & _); congruence). rewrite D, F.
  rewrite translatev_forM. induction vs as [|v vs IH] in |- *; [reflexivity|]. cbn [map forM].
  rewrite (linear_translate s lo hi L). cbn [bind]. now rewrite IH.
Qed.
Lemma spot_exact x0 y0 w h a b : spot exact (rect x0 y0 w h) (Fin a, Fin b) = vec (x0 + a * w) (y0 + b * h).
Proof. reflexivity. Qed.
Lemma combine_map2 {A B C D} (f : A -> C) (g : B -> D) l l' :
  combine (map f l) (map g l') = map (fun q => (f (fst q), g (snd q))) (combine l l').
Proof. revert l'. induction l as [|a l IH]; intros [|b l']; cbn; [reflexivity..|]. now rewrite IH. Qed.
Lemma spots_on_page sx sy ax bx ay by_ x0 y0 w h vs us :
  map (spot exact (rect x0 y0 w h))
    (combine (map (fun v => Fin (unit_pos (s_inverted sx) ax bx v)) vs) (map (fun v => Fin (unit_pos (s_inverted sy) ay by_ v)) us)) =
  map (on_page sx sy ax bx ay by_ x0 y0 w h) (combine vs us).
Proof. rewrite combine_map2, map_map. apply map_ext. intros [v u]. reflexivity. Qed.
