(** Options about different things can be exchanged: the four axes. *)
From Coq Require Import Reals Permutation.
From Verif Require Import Base Num Sexpr_Model Dispatch_Model Data_Model Scale_Model Units_Model Svg_Model Legend_Model Cmd_Model Cmd_Spec Cmd_Proofs
  Style_Model Plot_Model Axis_Model Eval_Model Order_Spec Order_Proofs Order_Proofs2 Order_Proofs3.
Local Open Scope string_scope.
Local Open Scope list_scope.

Lemma set_nth_same {A} i (v : A) l : (i < length l)%nat -> nth_error (set_nth i v l) i = Some v.
Proof. revert i. induction l as [|a l IH]; intros [|i] H; cbn in *; try (exfalso; inversion H; fail); auto. apply IH. now apply le_S_n. Qed.
Lemma set_nth_other {A} i j (v : A) l : i <> j -> nth_error (set_nth i v l) j = nth_error l j.
Proof. revert i j. induction l as [|a l IH]; intros [|i] [|j] H; cbn; auto; congruence. Qed.
Lemma set_nth_map {A B} (g : A -> B) i v l : map g (set_nth i v l) = set_nth i (g v) (map g l).
Proof. revert i. induction l as [|a l IH]; intros [|i]; cbn; auto. now rewrite IH. Qed.
Lemma set_nth_id {A} i (v : A) l : nth_error l i = Some v -> set_nth i v l = l.
Proof. revert i. induction l as [|a l IH]; intros [|i] H; cbn in *; try discriminate; [congruence|]. now rewrite IH. Qed.
Lemma nth_lt {A} (l : list A) i a : nth_error l i = Some a -> (i < length l)%nat.
Proof. intro H. apply nth_error_Some. congruence. Qed.
Lemma append_inj s a b : (s ++ a = s ++ b)%string -> a = b.
Proof. induction s as [|c s IH]; cbn; [auto|]. intro H. injection H. auto. Qed.

Definition side_name (i : nat) : string := match i with 0%nat => "top" | 1%nat => "right" | 2%nat => "bottom" | _ => "left" end.
Lemma side_inj i j a b : (i < 4)%nat -> (j < 4)%nat -> (side_name i ++ " " ++ a = side_name j ++ " " ++ b)%string -> i = j /\ a = b.
Proof.
  intros Hi Hj. assert (C : i = j \/ i <> j) by (destruct (PeanoNat.Nat.eq_dec i j); auto). destruct C as [->|N].
  - intro H. apply append_inj in H. split; [reflexivity|]. cbn in H. now injection H.
  - destruct i as [|[|[|[|i]]]]; destruct j as [|[|[|[|j]]]]; try congruence; try (cbn; discriminate); exfalso; repeat apply le_S_n in Hi; repeat apply le_S_n in Hj; inversion Hi; inversion Hj.
Qed.

(** The things of one axis, but whether it is shown. *)
Definition inner_views : list (view axis) := filter (fun v => negb (String.eqb (v_name v) "enable")) axis_views.
Definition lift (i : nat) (v : view axis) : view axes_cfg :=
  mk_view (side_name i ++ " " ++ v_name v) (fun s => option_map (v_get v) (nth_error (x_axes s) i)).
(** There are only four, so this is always empty. *)
Definition others (s : axes_cfg) : list axis := map (set_a_enable false) (skipn 4 (x_axes s)).
Lemma skip_set {A} i (v : A) l : (i < 4)%nat -> skipn 4 (set_nth i v l) = skipn 4 l.
Proof.
  intro H. destruct l as [|a [|b [|c [|e r]]]]; destruct i as [|[|[|[|i]]]]; try reflexivity; exfalso; repeat apply le_S_n in H; inversion H.
Qed.
Definition axes_views : list (view axes_cfg) :=
  flat_map (fun i => map (lift i) inner_views) [0; 1; 2; 3]%nat ++
  [mk_view "others" others; mk_view "position" (fun s => map a_enable (x_axes s))] ++ side_views "margin" x_margins.

Lemma axes_view_cases v : In v axes_views ->
  (exists i u, (i < 4)%nat /\ In u axis_views /\ v_name u <> "enable" /\ v = lift i u) \/
  v = mk_view "others" others \/ v = mk_view "position" (fun s => map a_enable (x_axes s)) \/ In v (side_views "margin" x_margins).
Proof.
  unfold axes_views. rewrite in_app_iff, in_flat_map. intros [(i & I & J)|J].
  - left. apply in_map_iff in J. destruct J as (u & <- & U). unfold inner_views in U. apply filter_In in U. destruct U as [U N].
    exists i, u. repeat split; auto.
    + cbn in I. destruct I as [<-|[<-|[<-|[<-|[]]]]]; repeat constructor.
    + intro K. rewrite K in N. discriminate.
  - rewrite in_app_iff in J. destruct J as [[<-|[<-|[]]]|J]; auto.
Qed.
(** Other names: no side is named as a margin or a position. *)
Lemma not_lifted v A i : (forall a, In a A -> a <> "margin") -> (v = mk_view "others" others \/ v = mk_view "position" (fun s => map a_enable (x_axes s)) \/ In v (side_views "margin" x_margins)) ->
  mem (v_name v) (on_side (side_name i) A) = false.
Proof.
  intros HA H. destruct (mem _ _) eqn:M; [|reflexivity]. exfalso. apply mem_In in M. unfold on_side in M. apply in_map_iff in M. destruct M as (a & M & I).
  specialize (HA a I).
  destruct H as [->|[->|H]]; [| |cbn in H; repeat (destruct H as [<-|H]); try contradiction];
    destruct i as [|[|[|i]]]; cbn in M; try discriminate; injection M; auto.
Qed.

Lemma own_on_axis A i c : (i < 4)%nat -> A <> [] -> ~ In "enable" A -> (forall a, In a A -> a <> "margin") -> (forall a, In a A -> exists u, In u axis_views /\ v_name u = a) ->
  own axis_views A c -> own axes_views (on_side (side_name i) A) (Axis_Model.on i c).
Proof.
  intros Hi NE NB NM HA [F L]. split; unfold Axis_Model.on.
  - intros e s v H. destruct (nth_error (x_axes s) i) as [a|] eqn:N; [|discriminate]. apply bind_ret in H. destruct H as (a' & C & H). injection H as <-.
    pose proof (proj1 (same_if_spec _ _ _ _) (F _ _ _ C)) as E1. apply same_if_spec. intros w Iw P.
    apply axes_view_cases in Iw. destruct Iw as [(j & u & Hj & U & NU & ->)|[->|[->|Iw]]].
    + cbn [lift v_get v_name x_axes] in *. destruct (PeanoNat.Nat.eq_dec i j) as [<-|Dj]; [|now rewrite set_nth_other].
      rewrite N, (set_nth_same i a' _ (nth_lt _ _ _ N)). cbn [option_map]. f_equal. apply E1; [exact U|].
      unfold off in *. destruct (mem (v_name u) A) eqn:M; [|reflexivity]. exfalso. apply mem_In in M.
      assert (M' : mem (side_name i ++ " " ++ v_name u) (on_side (side_name i) A) = true).
      { apply mem_In. unfold on_side. apply in_map_iff. exists (v_name u). auto. }
      rewrite M' in P. discriminate.
    + cbn [v_get]. unfold others. cbn [x_axes]. now rewrite skip_set.
    + cbn [v_get x_axes]. rewrite set_nth_map. symmetry. apply set_nth_id. rewrite nth_error_map, N. cbn [option_map]. f_equal.
      change (v_get (mk_view "enable" a_enable) a = v_get (mk_view "enable" a_enable) a'). apply E1.
      * cbn. tauto.
      * unfold off. cbn [v_name]. destruct (mem "enable" A) eqn:M; [|reflexivity]. apply mem_In in M. contradiction.
    + cbn in Iw. repeat (destruct Iw as [<-|Iw]; [reflexivity|]). contradiction.
  - intros e s t v Sm H. destruct (nth_error (x_axes s) i) as [a|] eqn:N; [|discriminate]. apply bind_ret in H. destruct H as (a' & C & H). injection H as <-.
    pose proof (proj1 (same_if_spec _ _ _ _) Sm) as E1.
    assert (IN : forall u, In u axis_views -> In (v_name u) A -> In (lift i u) axes_views /\ on (on_side (side_name i) A) (v_name (lift i u)) = true).
    { intros u U M. split.
      - unfold axes_views. apply in_app_iff. left. apply in_flat_map. exists i. split.
        + clear - Hi. destruct i as [|[|[|[|i]]]]; cbn; auto. exfalso. repeat apply le_S_n in Hi. inversion Hi.
        + apply in_map_iff. exists u. split; [reflexivity|]. unfold inner_views. apply filter_In. split; [exact U|].
          destruct (String.eqb_spec (v_name u) "enable") as [K|_]; [|reflexivity]. rewrite K in M. contradiction.
      - unfold on. apply mem_In. unfold on_side. apply in_map_iff. exists (v_name u). auto. }
    assert (N2 : exists b, nth_error (x_axes t) i = Some b).
    { destruct A as [|n A]; [contradiction|]. destruct (HA n (or_introl eq_refl)) as (u & U & Nu).
      destruct (IN u U) as [I1 I2]; [rewrite Nu; now left|]. specialize (E1 _ I1 I2). cbn [lift v_get] in E1. rewrite N in E1. cbn [option_map] in E1.
      destruct (nth_error (x_axes t) i) as [b|]; [eauto|discriminate]. }
    destruct N2 as [b N2]. rewrite N2.
    destruct (L e a b a') as [b' [Cb K]]; [|exact C|].
    { apply same_if_spec. intros u U P. apply mem_In in P. destruct (IN u U P) as [I1 I2]. specialize (E1 _ I1 I2). cbn [lift v_get] in E1.
      rewrite N, N2 in E1. cbn [option_map] in E1. congruence. }
    rewrite Cb. cbn [bind]. eexists. split; [reflexivity|]. pose proof (proj1 (same_if_spec _ _ _ _) K) as E2.
    apply same_if_spec. intros w Iw P. apply axes_view_cases in Iw. destruct Iw as [(j & u & Hj & U & NU & ->)|Iw].
    + cbn [lift v_get v_name x_axes] in *. unfold on in P. apply mem_In in P. unfold on_side in P. apply in_map_iff in P. destruct P as (n & P & In_).
      apply side_inj in P; auto. destruct P as [<- ->]. rewrite (set_nth_same i a' _ (nth_lt _ _ _ N)), (set_nth_same i b' _ (nth_lt _ _ _ N2)).
      cbn [option_map]. f_equal. apply E2; [exact U|]. unfold on. now apply mem_In.
    + unfold on in P. rewrite (not_lifted w A i NM Iw) in P. discriminate.
Qed.

(** position *)
Lemma enable_keeps l : forall axes axes', enable_sides l axes = Ret axes' ->
  forall u i, In u axis_views -> v_name u <> "enable" -> option_map (v_get u) (nth_error axes i) = option_map (v_get u) (nth_error axes' i).
Proof.
  assert (K : forall u b a, In u axis_views -> v_name u <> "enable" -> v_get u (set_a_enable b a) = v_get u a).
  { intros u b a U. cbn in U. repeat (destruct U as [<-|U]; [try reflexivity; intro X; exfalso; apply X; reflexivity|]). contradiction. }
  induction l as [|x l IH]; intros axes axes' H u i U NU; cbn [enable_sides] in H; [injection H as <-; reflexivity|].
  destruct (side_index x) as [j|]; [|discriminate]. destruct (nth_error axes j) as [a|] eqn:N; [|discriminate].
  rewrite <- (IH _ _ H u i U NU). destruct (PeanoNat.Nat.eq_dec j i) as [<-|D]; [|now rewrite set_nth_other].
  rewrite (set_nth_same j _ _ (nth_lt _ _ _ N)), N. cbn [option_map]. now rewrite K.
Qed.
Lemma enable_same l : forall a b a', map a_enable a = map a_enable b -> enable_sides l a = Ret a' ->
  exists b', enable_sides l b = Ret b' /\ map a_enable a' = map a_enable b'.
Proof.
  induction l as [|x l IH]; intros a b a' M H; cbn [enable_sides] in *; [injection H as <-; eauto|].
  destruct (side_index x) as [j|]; [|discriminate]. destruct (nth_error a j) as [u|] eqn:N; [|discriminate].
  assert (Lt : (j < length b)%nat) by (rewrite <- (map_length a_enable b), <- M, map_length; exact (nth_lt _ _ _ N)).
  destruct (nth_error b j) as [w|] eqn:Nb; [|apply nth_error_None in Nb; exfalso; apply (PeanoNat.Nat.lt_irrefl j); eapply PeanoNat.Nat.lt_le_trans; eauto].
  apply (IH _ _ _) with (2 := H). rewrite !set_nth_map, M. reflexivity.
Qed.
Lemma own_position : own axes_views ["position"] c_position.
Proof.
  split; unfold c_position.
  - intros e s v H. apply bind_ret in H. destruct H as (axes & H1 & H). injection H as <-. apply same_if_spec. intros w Iw P.
    apply axes_view_cases in Iw. destruct Iw as [(j & u & Hj & U & NU & ->)|[->|[->|Iw]]].
    + cbn [lift v_get x_axes]. rewrite <- (enable_keeps _ _ _ H1 u j U NU). rewrite nth_error_map. destruct (nth_error (x_axes s) j) as [a|]; [|reflexivity].
      cbn [option_map]. f_equal. cbn in U. repeat (destruct U as [<-|U]; [try reflexivity; exfalso; apply NU; reflexivity|]). contradiction.
    + cbn [v_get]. unfold others. cbn [x_axes]. assert (K : map (set_a_enable false) (skipn 4 axes) = map (set_a_enable false) (skipn 4 (map (set_a_enable false) (x_axes s)))).
      { clear - H1. revert H1. generalize (map (set_a_enable false) (x_axes s)). induction e as [|x e IH]; intros l H; cbn [enable_sides] in H; [now injection H as <-|].
        destruct (side_index x) as [j|] eqn:J; [|discriminate]. destruct (nth_error l j) as [a|]; [|discriminate].
        rewrite (IH _ H), skip_set; [reflexivity|]. unfold side_index in J. repeat (destruct (is_word [x] _); [injection J as <-; repeat constructor|]). discriminate. }
      rewrite K. rewrite skipn_map, map_map. reflexivity.
    + discriminate.
    + cbn in Iw. repeat (destruct Iw as [<-|Iw]; [reflexivity|]). contradiction.
  - intros e s t v Sm H. apply bind_ret in H. destruct H as (axes & H1 & H). injection H as <-.
    pose proof (proj1 (same_if_spec _ _ _ _) Sm (mk_view "position" (fun s => map a_enable (x_axes s)))) as E1. cbn [v_get] in E1.
    assert (M : map a_enable (x_axes s) = map a_enable (x_axes t)).
    { apply E1; [|reflexivity]. unfold axes_views. apply in_app_iff. right. right. now left. }
    destruct (enable_same e (map (set_a_enable false) (x_axes s)) (map (set_a_enable false) (x_axes t)) axes) as (b' & B & K); [|exact H1|].
    { rewrite !map_map. cbn [set_a_enable a_enable].
      assert (Len : length (x_axes s) = length (x_axes t)) by (rewrite <- (map_length a_enable), M, map_length; reflexivity).
      revert Len. generalize (x_axes s) (x_axes t). clear. induction l as [|a l IH]; intros [|b r] Len; cbn in *; try discriminate; auto.
      f_equal. apply IH. now injection Len. }
    rewrite B. cbn [bind]. eexists. split; [reflexivity|]. apply same_if_spec. intros w Iw P.
    apply axes_view_cases in Iw. destruct Iw as [(j & u & Hj & U & NU & ->)|[->|[->|Iw]]].
    + exfalso. cbn [lift v_name] in P. destruct j as [|[|[|[|j]]]]; cbn in P; try discriminate.
    + discriminate P.
    + exact K.
    + exfalso. cbn in Iw. repeat (destruct Iw as [<-|Iw]; [discriminate P|]). contradiction.
Qed.

Section AxesTable.
  Variable W : world.
  Variable E : env.
  Lemma o_scale : own axis_views ["kind"; "padding"] (c_scale W).
  Proof. unfold c_scale. entry. Qed.
  Lemma o_limit : own axis_views ["minimum"; "maximum"] (c_limit W).
  Proof. unfold c_limit. entry. Qed.
  Lemma o_lfont : own axis_views ["label font"] (c_lfont W).
  Proof. unfold c_lfont. entry. Qed.
  Lemma o_tfont : own axis_views ["title font"] (c_tfont W).
  Proof. unfold c_tfont. entry. Qed.
  Lemma o_lplace : own axis_views ["label placement"] (c_lplace W).
  Proof. unfold c_lplace. entry. Qed.
  Lemma o_tickplace : own axis_views ["tick placement"] (c_tickplace W).
  Proof. unfold c_tickplace. entry. Qed.
  Lemma o_lformat : own axis_views ["label format"] (c_lformat W).
  Proof. unfold c_lformat. entry. Qed.
  Lemma o_attach : own axis_views ["label attach"] c_attach.
  Proof. unfold c_attach. entry. Qed.
  Lemma o_loff : own axis_views ["label offset"] (c_loff W).
  Proof. unfold c_loff. entry. Qed.
  Lemma o_lpad : own axis_views ["label padding"] (c_lpad W).
  Proof. unfold c_lpad. entry. Qed.
  Lemma o_lrotate : own axis_views ["label rotation"] (c_lrotate W).
  Proof. unfold c_lrotate. entry. Qed.
  Lemma o_lsize : own axis_views ["label size"] (c_lsize W E).
  Proof. unfold c_lsize. entry. Qed.
  Lemma o_lcolor : own axis_views ["label colour"] (c_lcolor W E).
  Proof. unfold c_lcolor. entry. Qed.
  Lemma o_tickoff : own axis_views ["tick offset"] (c_tickoff W).
  Proof. unfold c_tickoff. entry. Qed.
  Lemma o_ticklen : own axis_views ["tick length"] (c_ticklen W).
  Proof. unfold c_ticklen. entry. Qed.
  Lemma o_title : own axis_views ["title"] c_title.
  Proof. unfold c_title. entry. Qed.
  Lemma o_tsize : own axis_views ["title size"] (c_tsize W E).
  Proof. unfold c_tsize. entry. Qed.
  Lemma o_tcolor : own axis_views ["title colour"] (c_tcolor W E).
  Proof. unfold c_tcolor. entry. Qed.
  Lemma o_toff : own axis_views ["title offset"] (c_toff W).
  Proof. unfold c_toff. entry. Qed.
  Lemma o_tpad : own axis_views ["title padding"] (c_tpad W).
  Proof. unfold c_tpad. entry. Qed.
  Lemma o_trotate : own axis_views ["title rotation"] (c_trotate W).
  Proof. unfold c_trotate. entry. Qed.
  Lemma o_bwidth : own axis_views ["border width"] (c_bwidth W E).
  Proof. unfold c_bwidth. entry. Qed.
  Lemma o_bcolor : own axis_views ["border colour"] (c_bcolor W E).
  Proof. unfold c_bcolor. entry. Qed.
  Lemma o_bstyle : own axis_views ["border width"] c_bstyle.
  Proof. unfold c_bstyle. entry. Qed.
  Lemma all_views a : mem a (map v_name axis_views) = true -> exists u, In u axis_views /\ v_name u = a.
  Proof. intro M. apply mem_In, in_map_iff in M. destruct M as (u & H & I). eauto. Qed.
  Lemma check_names A : forallb (fun a => mem a (map v_name axis_views) && negb (String.eqb a "enable") && negb (String.eqb a "margin")) A = true ->
    ~ In "enable" A /\ (forall a, In a A -> a <> "margin") /\ (forall a, In a A -> exists u, In u axis_views /\ v_name u = a).
  Proof.
    rewrite forallb_forall. intro H. repeat split.
    - intro I. apply H in I. discriminate.
    - intros a I ->. apply H in I. discriminate.
    - intros a I. apply H in I. apply andb_prop in I. destruct I as [I _]. apply andb_prop in I. destruct I as [I _]. now apply all_views.
  Qed.
  Lemma own_side A B i c : own axis_views A c -> (i < 4)%nat -> A <> [] ->
    forallb (fun a => mem a (map v_name axis_views) && negb (String.eqb a "enable") && negb (String.eqb a "margin")) A = true ->
    forallb (fun n => mem n B) (on_side (side_name i) A) = true -> own axes_views B (Axis_Model.on i c).
  Proof.
    intros O Hi NE C I. apply check_names in C. destruct C as (C1 & C2 & C3). apply (own_more _ (on_side (side_name i) A)).
    - intros n J. rewrite forallb_forall in I. now apply mem_In, I.
    - apply own_on_axis; auto.
  Qed.
  Ltac known := lazymatch goal with
    | |- own _ _ (c_scale _) => exact o_scale
    | |- own _ _ (c_limit _) => exact o_limit
    | |- own _ _ (c_lfont _) => exact o_lfont
    | |- own _ _ (c_tfont _) => exact o_tfont
    | |- own _ _ (c_lplace _) => exact o_lplace
    | |- own _ _ (c_tickplace _) => exact o_tickplace
    | |- own _ _ (c_lformat _) => exact o_lformat
    | |- own _ _ (c_attach) => exact o_attach
    | |- own _ _ (c_loff _) => exact o_loff
    | |- own _ _ (c_lpad _) => exact o_lpad
    | |- own _ _ (c_lrotate _) => exact o_lrotate
    | |- own _ _ (c_lsize _ _) => exact o_lsize
    | |- own _ _ (c_lcolor _ _) => exact o_lcolor
    | |- own _ _ (c_tickoff _) => exact o_tickoff
    | |- own _ _ (c_ticklen _) => exact o_ticklen
    | |- own _ _ (c_title) => exact o_title
    | |- own _ _ (c_tsize _ _) => exact o_tsize
    | |- own _ _ (c_tcolor _ _) => exact o_tcolor
    | |- own _ _ (c_toff _) => exact o_toff
    | |- own _ _ (c_tpad _) => exact o_tpad
    | |- own _ _ (c_trotate _) => exact o_trotate
    | |- own _ _ (c_bwidth _ _) => exact o_bwidth
    | |- own _ _ (c_bcolor _ _) => exact o_bcolor
    | |- own _ _ (c_bstyle) => exact o_bstyle
    end.
  Ltac open_axes := repeat match goal with s : axes_cfg |- _ => destruct s as [? [[[? ?] ?] ?]] end.
  Lemma own_margins A put : (forall v s, x_axes (put v s) = x_axes s) ->
    (forall n, In n ["top margin"; "right margin"; "bottom margin"; "left margin"] -> mem n A = false ->
       forall v s u, In u (side_views "margin" x_margins) -> v_name u = n -> v_get u s = v_get u (put v s)) ->
    (forall v s t u, In u (side_views "margin" x_margins) -> mem (v_name u) A = true -> v_get u s = v_get u t -> v_get u (put v s) = v_get u (put v t)) ->
    (forall n, In n A -> In n ["top margin"; "right margin"; "bottom margin"; "left margin"]) ->
    own axes_views A (upd (rd_size W E) put).
  Proof.
    intros Ax F L In4. apply own_upd.
    - intros v s. apply same_if_spec. intros w Iw P. apply axes_view_cases in Iw. destruct Iw as [(j & u & Hj & U & NU & ->)|[->|[->|Iw]]].
      + cbn [lift v_get]. now rewrite Ax.
      + cbn [v_get]. unfold others. now rewrite Ax.
      + cbn [v_get]. now rewrite Ax.
      + apply (F (v_name w)); auto.
        * cbn in Iw. repeat (destruct Iw as [<-|Iw]; [cbn; tauto|]). contradiction.
        * unfold off in P. destruct (mem (v_name w) A); [discriminate|reflexivity].
    - intros v s t Sm. pose proof (proj1 (same_if_spec _ _ _ _) Sm) as E1. apply same_if_spec. intros w Iw P. pose proof (E1 w Iw P) as E2.
      apply axes_view_cases in Iw. destruct Iw as [(j & u & Hj & U & NU & ->)|[->|[->|Iw]]].
      + cbn [lift v_get] in *. now rewrite !Ax.
      + cbn [v_get] in *. unfold others in *. now rewrite !Ax.
      + cbn [v_get] in *. now rewrite !Ax.
      + apply L; auto.
  Qed.
  Ltac margin1 := apply own_margins;
    [intros; reflexivity
    |intros n _ M v [? [[[? ?] ?] ?]] u U Nu; subst n; cbn in U; repeat (destruct U as [<-|U]; [try reflexivity; cbn in M; discriminate|]); contradiction
    |intros v [? [[[? ?] ?] ?]] [? [[[? ?] ?] ?]] u U M K; cbn in U; repeat (destruct U as [<-|U]; [try reflexivity; try exact K|]); contradiction
    |cbn; intuition].
  Notation entry_ok := (entry_ok axes_views about_axes).
  Definition proper (A : list string) : Prop := A <> [] /\
    forallb (fun a => mem a (map v_name axis_views) && negb (String.eqb a "enable") && negb (String.eqb a "margin")) A = true.
  Lemma ok_is k f A : topics_of about_axes k = Some A -> own axes_views A f -> entry_ok (k, f).
  Proof. unfold Order_Proofs.entry_ok. cbn [fst snd]. now intros ->. Qed.
  Lemma side_ok A B i c : own axis_views A c -> proper A -> (i < 4)%nat -> incl (on_side (side_name i) A) B -> own axes_views B (Axis_Model.on i c).
  Proof.
    intros O [NE C] Hi I. apply (own_side A); auto. apply forallb_forall. intros n J. apply mem_In. auto.
  Qed.
  Lemma sides_ok name A c : own axis_views A c -> proper A ->
    topics_of about_axes (s_ name ++ s_ "-top") = Some (on_side "top" A) -> topics_of about_axes (s_ name ++ s_ "-right") = Some (on_side "right" A) ->
    topics_of about_axes (s_ name ++ s_ "-bottom") = Some (on_side "bottom" A) -> topics_of about_axes (s_ name ++ s_ "-left") = Some (on_side "left" A) ->
    Forall entry_ok (sides name c).
  Proof.
    intros O P T0 T1 T2 T3. unfold sides.
    apply Forall_cons; [apply (ok_is _ _ _ T0); apply (side_ok A); auto using incl_refl; repeat constructor|].
    apply Forall_cons; [apply (ok_is _ _ _ T1); apply (side_ok A); auto using incl_refl; repeat constructor|].
    apply Forall_cons; [apply (ok_is _ _ _ T2); apply (side_ok A); auto using incl_refl; repeat constructor|].
    apply Forall_cons; [apply (ok_is _ _ _ T3); apply (side_ok A); auto using incl_refl; repeat constructor|].
    apply Forall_nil.
  Qed.
  Lemma all_ok is cs B : Forall (fun c => exists A, own axis_views A c /\ proper A /\ forall i, In i is -> (i < 4)%nat /\ incl (on_side (side_name i) A) B) cs ->
    own axes_views B (on_all is cs).
  Proof.
    intro F. unfold on_all. apply own_call. apply Forall_forall. intros f I. apply in_flat_map in I. destruct I as (c & Ic & I).
    apply in_map_iff in I. destruct I as (i & <- & Ii). rewrite Forall_forall in F. destruct (F c Ic) as (A & O & P & H). destruct (H i Ii) as [H1 H2].
    now apply (side_ok A).
  Qed.
  Lemma dims_ok name A c : own axis_views A c -> proper A ->
    topics_of about_axes (s_ name ++ s_ "-x") = Some (on_side "top" A ++ on_side "bottom" A) ->
    topics_of about_axes (s_ name ++ s_ "-y") = Some (on_side "right" A ++ on_side "left" A) ->
    Forall entry_ok (dims name c).
  Proof.
    intros O P T0 T1. unfold dims.
    apply Forall_cons; [|apply Forall_cons; [|apply Forall_nil]].
    - apply (ok_is _ _ _ T0). apply all_ok. apply Forall_cons; [|apply Forall_nil].
      exists A. split; [exact O|split; [exact P|]]. intros i I. cbn in I. destruct I as [<-|[<-|[]]];
      (split; [repeat constructor|]); intros n J; apply in_app_iff; auto.
    - apply (ok_is _ _ _ T1). apply all_ok. apply Forall_cons; [|apply Forall_nil].
      exists A. split; [exact O|split; [exact P|]]. intros i I. cbn in I. destruct I as [<-|[<-|[]]];
      (split; [repeat constructor|]); intros n J; apply in_app_iff; auto.
  Qed.
  Definition on_four (A : list string) := on_side "top" A ++ on_side "right" A ++ on_side "bottom" A ++ on_side "left" A.
  Lemma on_four_in i A B : In i all4 -> incl A B -> (i < 4)%nat /\ incl (on_side (side_name i) A) (on_four B).
  Proof.
    intros I J. assert (K : forall sd, incl (on_side sd A) (on_side sd B)).
    { intros sd n H. unfold on_side in *. apply in_map_iff in H. destruct H as (a & <- & H). apply in_map_iff. exists a. auto. }
    cbn in I. destruct I as [<-|[<-|[<-|[<-|[]]]]]; (split; [repeat constructor|]); intros n H; apply K in H; unfold on_four; rewrite !in_app_iff; tauto.
  Qed.
  Lemma every_ok name A c : own axis_views A c -> proper A -> topics_of about_axes (s_ name) = Some (on_four A) -> Forall entry_ok (every name c).
  Proof.
    intros O P T. unfold every. apply Forall_cons; [|apply Forall_nil]. eapply ok_is; [exact T|]. apply all_ok. apply Forall_cons; [|apply Forall_nil].
    exists A. split; [exact O|]. split; [exact P|]. intros i I. apply on_four_in; auto using incl_refl.
  Qed.
  Ltac prop_ := split; [discriminate|vm_compute; reflexivity].
  Ltac chunk := lazymatch goal with
    | |- Forall _ (sides _ _) => eapply sides_ok; [known|prop_|vm_compute; reflexivity..]
    | |- Forall _ (dims _ _) => eapply dims_ok; [known|prop_|vm_compute; reflexivity..]
    | |- Forall _ (every _ _) => eapply every_ok; [known|prop_|vm_compute; reflexivity]
    end.
  Lemma margins_ok : Forall entry_ok (margin_entries W E x_margins (fun m s => mk_axes (x_axes s) m)).
  Proof.
    unfold margin_entries. cbv zeta beta. apply Forall_cons.
    - apply (ok_is _ _ (four "margin")); [vm_compute; reflexivity|]. apply own_call. repeat apply Forall_cons; try apply Forall_nil; margin1.
    - apply Forall_cons; [apply (ok_is _ _ ["top margin"]); [vm_compute; reflexivity|margin1]|].
      apply Forall_cons; [apply (ok_is _ _ ["right margin"]); [vm_compute; reflexivity|margin1]|].
      apply Forall_cons; [apply (ok_is _ _ ["bottom margin"]); [vm_compute; reflexivity|margin1]|].
      apply Forall_cons; [apply (ok_is _ _ ["left margin"]); [vm_compute; reflexivity|margin1]|]. apply Forall_nil.
  Qed.
  Lemma axes_owned : owned axes_views about_axes (axes_table W E).
  Proof.
    unfold axes_table.
    apply (owned_hidden _ _
      ([(s_ "position", c_position)] ++
       dims "scale" (c_scale W) ++ sides "scale" (c_scale W) ++ dims "limit" (c_limit W) ++ sides "limit" (c_limit W) ++
       dims "label-placement" (c_lplace W) ++ sides "label-placement" (c_lplace W) ++
       every "label-format" (c_lformat W) ++ dims "label-format" (c_lformat W) ++
       sides "label-attach" c_attach ++ sides "label-offset" (c_loff W) ++ sides "label-padding" (c_lpad W) ++
       sides "label-rotate" (c_lrotate W) ++ sides "label-format" (c_lformat W) ++
       every "label-font-size" (c_lsize W E) ++ every "label-color" (c_lcolor W E) ++ dims "label-color" (c_lcolor W E) ++
       sides "label-color" (c_lcolor W E) ++ every "label-font" (c_lfont W) ++ sides "label-font" (c_lfont W) ++
       dims "label-font-size" (c_lsize W E) ++ sides "label-font-size" (c_lsize W E))
      (dims "label-placement" (c_tickplace W))).
    - apply Forall_app; split; [apply Forall_cons; [|apply Forall_nil]; apply (ok_is _ _ ["position"]); [vm_compute; reflexivity|exact own_position]|].
      repeat (apply Forall_app; split; [chunk|]). chunk.
    - repeat (apply Forall_app; split; [first [chunk|exact margins_ok]|]).
      apply Forall_cons; [|apply Forall_cons; [|apply Forall_nil]].
      + apply (ok_is _ _ (on_four ["label font"; "title font"])); [vm_compute; reflexivity|]. apply all_ok.
        apply Forall_cons; [|apply Forall_cons; [|apply Forall_nil]]; [exists ["label font"]|exists ["title font"]];
        (split; [known|split; [prop_|]]); intros i I; (apply on_four_in; [exact I|]); intros n J; cbn in *; tauto.
      + apply (ok_is _ _ (on_four ["label size"; "title size"])); [vm_compute; reflexivity|]. apply all_ok.
        apply Forall_cons; [|apply Forall_cons; [|apply Forall_nil]]; [exists ["title size"]|exists ["label size"]];
        (split; [known|split; [prop_|]]); intros i I; (apply on_four_in; [exact I|]); intros n J; cbn in *; tauto.
    - intros k I. cbn [dims map fst] in I. unfold dims. rewrite !map_app. cbn [map fst]. rewrite !in_app_iff. cbn [In] in *. intuition.
  Qed.
  Lemma axis_eq a b : (forall u, In u axis_views -> v_name u <> "enable" -> v_get u a = v_get u b) -> a_enable a = a_enable b -> a = b.
  Proof.
    intros H En. apply axis_whole. apply same_if_spec. intros u U _. destruct (String.eqb_spec (v_name u) "enable") as [K|K]; [|auto].
    cbn in U. repeat (destruct U as [<-|U]; [try discriminate K; exact En|]). contradiction.
  Qed.
  Lemma axes_whole : whole axes_views.
  Proof.
    intros s t H. pose proof (proj1 (same_if_spec _ _ _ _) H) as E1. clear H.
    assert (P : map a_enable (x_axes s) = map a_enable (x_axes t)).
    { apply (E1 (mk_view "position" (fun s => map a_enable (x_axes s)))); [|reflexivity]. unfold axes_views. apply in_app_iff. right. right. now left. }
    assert (O : others s = others t).
    { apply (E1 (mk_view "others" others)); [|reflexivity]. unfold axes_views. apply in_app_iff. right. now left. }
    assert (X : forall i, (i < 4)%nat -> nth_error (x_axes s) i = nth_error (x_axes t) i).
    { intros i Hi. assert (L : forall u, In u axis_views -> v_name u <> "enable" -> option_map (v_get u) (nth_error (x_axes s) i) = option_map (v_get u) (nth_error (x_axes t) i)).
      { intros u U NU. apply (E1 (lift i u)); [|reflexivity]. unfold axes_views. apply in_app_iff. left. apply in_flat_map. exists i. split.
        - clear - Hi. destruct i as [|[|[|[|i]]]]; cbn; auto. exfalso. repeat apply le_S_n in Hi. inversion Hi.
        - apply in_map_iff. exists u. split; [reflexivity|]. unfold inner_views. apply filter_In. split; [exact U|].
          destruct (String.eqb_spec (v_name u) "enable") as [K|_]; [contradiction|reflexivity]. }
      pose proof (f_equal (fun l => nth_error l i) P) as En. cbn beta in En. rewrite !nth_error_map in En.
      destruct (nth_error (x_axes s) i) as [a|], (nth_error (x_axes t) i) as [b|]; cbn [option_map] in *; try discriminate; [|reflexivity].
      f_equal. apply axis_eq; [|congruence]. intros u U NU. specialize (L u U NU). congruence. }
    assert (M : x_margins s = x_margins t).
    { assert (Y : forall u, In u (side_views "margin" x_margins) -> v_get u s = v_get u t).
      { intros u U. apply E1; [|reflexivity]. unfold axes_views. apply in_app_iff. right. right. right. exact U. }
      pose proof (Y _ (or_introl eq_refl)) as Y0. pose proof (Y _ (or_intror (or_introl eq_refl))) as Y1.
      pose proof (Y _ (or_intror (or_intror (or_introl eq_refl)))) as Y2. pose proof (Y _ (or_intror (or_intror (or_intror (or_introl eq_refl))))) as Y3.
      cbn [v_get] in *. destruct (x_margins s) as [[[? ?] ?] ?], (x_margins t) as [[[? ?] ?] ?]. cbn [side4] in *. congruence. }
    destruct s as [xs ms], t as [ys mt]. cbn [x_axes x_margins] in *. unfold others in O. cbn [x_axes] in O. f_equal; [|exact M].
    assert (Len : length xs = length ys) by (rewrite <- (map_length a_enable), P, map_length; reflexivity).
    assert (Sk : skipn 4 xs = skipn 4 ys).
    { pose proof (f_equal (skipn 4) P) as Q. rewrite !skipn_map in Q. revert O Q. generalize (skipn 4 xs) (skipn 4 ys). clear.
      induction l as [|a l IH]; intros [|b r] O Q; cbn [map] in *; try discriminate; [reflexivity|].
      pose proof (f_equal (hd a) O) as O1. pose proof (f_equal (@tl axis) O) as O2. cbn [hd tl] in O1, O2. injection Q as Q1 Q2. f_equal; [|auto].
      apply axis_eq; [|exact Q1]. intros u U NU. pose proof (f_equal (v_get u) O1) as Z. clear - Z U NU.
      cbn in U. repeat (destruct U as [<-|U]; [first [exfalso; apply NU; reflexivity|exact Z]|]). contradiction. }
    rewrite <- (firstn_skipn 4 xs), <- (firstn_skipn 4 ys), Sk. f_equal.
    pose proof (X 0%nat) as X0. pose proof (X 1%nat) as X1. pose proof (X 2%nat) as X2. pose proof (X 3%nat) as X3.
    clear - X0 X1 X2 X3 Len. assert (B : (0 < 4 /\ 1 < 4 /\ 2 < 4 /\ 3 < 4)%nat) by (repeat split; repeat constructor). destruct B as (B0 & B1 & B2 & B3).
    specialize (X0 B0). specialize (X1 B1). specialize (X2 B2). specialize (X3 B3).
    destruct xs as [|a [|b [|c [|e xs]]]], ys as [|a' [|b' [|c' [|e' ys]]]]; cbn in *; try discriminate; try congruence.
  Qed.
End AxesTable.
