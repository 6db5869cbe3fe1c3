(** The options of the axes command, side by side. *)
From Coq Require Import Reals Lra.
From Verif Require Import Base Num Sexpr_Model Dispatch_Model Dispatch_Spec Data_Model Scale_Model Scale_Spec
  Units_Model Color_Model Geo_Model Svg_Model Format_Model Cmd_Model Cmd_Spec Cmd_Proofs Style_Model Plot_Model Plot_Spec Axis_Model Axis_Spec.

Lemma nth_set_same {A} i (v : A) l dflt a : nth_error l i = Some a -> nth i (set_nth i v l) dflt = v.
Proof. revert l. induction i as [|i IH]; intros [|x l] H; cbn in *; try discriminate; auto. Qed.
Lemma nth_set_other {A} i j (v : A) l dflt : i <> j -> nth i (set_nth j v l) dflt = nth i l dflt.
Proof. revert j l. induction i as [|i IH]; intros [|j] [|x l] H; cbn; try congruence; auto. Qed.
Lemma set_nth_length {A} i (v : A) l : length (set_nth i v l) = length l.
Proof. revert i. induction l; intros [|i]; cbn; auto. Qed.

Fixpoint index_of (k : str) (l : list str) : option nat :=
  match l with [] => None | x :: r => if str_eqb k x then Some 0%nat else option_map S (index_of k r) end.
Lemma assoc_index {T} k (l : list (str * T)) : assoc k l =
  match index_of k (map fst l) with Some i => option_map snd (nth_error l i) | None => None end.
Proof.
  induction l as [|[x v] l IH]; [reflexivity|]. cbn [assoc map fst index_of]. destruct (str_eqb k x); [reflexivity|].
  rewrite IH. now destruct (index_of k (map fst l)).
Qed.
(** Looking up a key by computation. *)
Ltac look_up :=
  rewrite assoc_index;
  match goal with |- context [index_of ?k ?l] => let v := eval vm_compute in (index_of k l) in replace (index_of k l) with v by (vm_compute; reflexivity) end;
  cbv iota beta;
  try match goal with |- context [option_map snd (nth_error ?l ?i)] => let v := eval hnf in (option_map snd (nth_error l i)) in change (option_map snd (nth_error l i)) with v; cbv iota beta end.

Section Sides.
  Variables (W : world) (E : env) (dflt : axis).
  Definition at_side (i : nat) (s : axes_cfg) : axis := nth i (x_axes s) dflt.

  Lemma on_same i (c : cmd axis) e s s' : on i c e s = Ret s' -> c e (at_side i s) = Ret (at_side i s').
  Proof.
    unfold on. destruct (nth_error (x_axes s) i) as [a|] eqn:N; [|discriminate]. intro H. inv_bind H. injection H as <-.
    unfold at_side. cbn [x_axes]. rewrite (nth_set_same _ _ _ _ _ N). now rewrite (nth_error_nth _ _ _ N).
  Qed.
  Lemma on_other i j (c : cmd axis) e s s' : i <> j -> on j c e s = Ret s' -> at_side i s' = at_side i s.
  Proof.
    unfold on. intro D. destruct (nth_error (x_axes s) j) as [a|] eqn:N; [|discriminate]. intro H. inv_bind H. injection H as <-.
    unfold at_side. cbn [x_axes]. now apply nth_set_other.
  Qed.
  Lemma on_length j (c : cmd axis) e s s' : on j c e s = Ret s' -> length (x_axes s') = length (x_axes s).
  Proof.
    unfold on. destruct (nth_error (x_axes s) j) as [a|] eqn:N; [|discriminate]. intro H. inv_bind H. injection H as <-. apply set_nth_length.
  Qed.
  Lemma enable_side i l : forall axes axes', enable_sides l axes = Ret axes' -> (i < 4)%nat ->
    let g := nth i the_sides AX in
    nth i axes' dflt = if existsb (fun x => is_word [x] (side_name g)) l then set_a_enable true (nth i axes dflt) else nth i axes dflt.
  Proof.
    induction l as [|e l IH]; intros axes axes' H I g.
    - cbn in *. now injection H as <-.
    - cbn [enable_sides] in H. destruct (side_index e) as [j|] eqn:S; [|discriminate]. destruct (nth_error axes j) as [a|] eqn:N; [|discriminate].
      specialize (IH _ _ H I). cbn zeta in IH. fold g in IH. rewrite IH. clear IH. cbn [existsb].
      assert (is_word [e] (side_name g) = (i =? j)%nat) as ->.
      { unfold side_index in S. unfold g. clear - S I.
        assert (forall u v : string, s_ u <> s_ v -> is_word [e] u = true -> is_word [e] v = false) as D.
        { unfold is_word, is_val. intros u v Q U. destruct (value_of [e]) as [w|]; [|reflexivity]. destruct (str_eqb_spec w (s_ u)); [|discriminate].
          destruct (str_eqb_spec w (s_ v)); [|reflexivity]. congruence. }
        destruct (is_word [e] "top") eqn:T; [|destruct (is_word [e] "bottom") eqn:B; [|destruct (is_word [e] "left") eqn:L; [|destruct (is_word [e] "right") eqn:R; [|discriminate]]]];
        injection S as <-; do 4 (destruct i as [|i]; [cbn [nth the_sides side_name Nat.eqb]; solve [assumption | eapply D; [|eassumption]; discriminate]|]); lia. }
      destruct (Nat.eqb_spec i j) as [->|D]; cbn [orb].
      + rewrite (nth_set_same _ _ _ _ _ N). rewrite (nth_error_nth _ _ _ N). destruct (existsb _ l); reflexivity.
      + now rewrite nth_set_other.
  Qed.
  Lemma position_side i e s s' : (i < 4)%nat -> length (x_axes s) = 4%nat -> c_position e s = Ret s' ->
    at_side i s' = set_a_enable (existsb (fun x => is_word [x] (side_name (nth i the_sides AX))) e) (at_side i s).
  Proof.
    intros I L H. unfold c_position in H. inv_bind H. injection H as <-. unfold at_side. cbn [x_axes].
    rewrite (enable_side i e _ _ A I). rewrite (nth_indep _ dflt (set_a_enable false dflt)) by (rewrite map_length; lia). rewrite map_nth.
    destruct (existsb _ e); reflexivity.
  Qed.

  (** One entry of the table as seen from the side [i]. *)
  Definition entry_at (i : nat) (sub : list (str * cmd axis)) (kf : str * cmd axes_cfg) : Prop :=
    forall a s s', length (x_axes s) = 4%nat -> snd kf a s = Ret s' ->
      length (x_axes s') = 4%nat /\
      match assoc (fst kf) sub with Some h => h a (at_side i s) = Ret (at_side i s') | None => at_side i s' = at_side i s end.
  Lemma run_at i fns sub : (forall k f, assoc k fns = Some f -> entry_at i sub (k, f)) ->
    forall l s s', length (x_axes s) = 4%nat -> run fns l s = Ret s' ->
    length (x_axes s') = 4%nat /\ options sub l (at_side i s) = Ret (at_side i s').
  Proof.
    intros P. induction l as [|e l IH]; intros s s' L H.
    - injection H as <-. auto.
    - rewrite run_cons in H. rewrite options_cons. destruct (option_of e) as [[k a]|]; [|discriminate].
      destruct (assoc k fns) as [f|] eqn:F; [|discriminate].
      inv_bind H. destruct (P _ _ F _ _ _ L A) as [L' Q]. cbn [fst] in Q.
      destruct (assoc k sub) as [h|]; [rewrite Q; cbn [bind]|rewrite <- Q]; auto.
  Qed.
  Lemma assoc_app {T} k (l1 l2 : list (str * T)) : assoc k (l1 ++ l2) = match assoc k l1 with Some v => Some v | None => assoc k l2 end.
  Proof. induction l1 as [|[k' v] l1 IH]; [reflexivity|]. cbn [app assoc]. destruct (str_eqb k k'); auto. Qed.
  (** The second pair of entries label-placement-x, label-placement-y is never used. *)
  Definition table1 : list (str * cmd axes_cfg) :=
    [(s_ "position", c_position)] ++
    dims "scale" (c_scale W) ++ sides "scale" (c_scale W) ++ dims "limit" (c_limit W) ++ sides "limit" (c_limit W) ++
    dims "label-placement" (c_lplace W) ++ sides "label-placement" (c_lplace W) ++
    every "label-format" (c_lformat W) ++ dims "label-format" (c_lformat W) ++
    sides "label-attach" c_attach ++ sides "label-offset" (c_loff W) ++ sides "label-padding" (c_lpad W) ++
    sides "label-rotate" (c_lrotate W) ++ sides "label-format" (c_lformat W) ++
    every "label-font-size" (c_lsize W E) ++ every "label-color" (c_lcolor W E) ++ dims "label-color" (c_lcolor W E) ++
    sides "label-color" (c_lcolor W E) ++ every "label-font" (c_lfont W) ++ sides "label-font" (c_lfont W) ++
    dims "label-font-size" (c_lsize W E) ++ sides "label-font-size" (c_lsize W E).
  Definition table2 : list (str * cmd axes_cfg) :=
    sides "tick-placement" (c_tickplace W) ++
    sides "tick-offset" (c_tickoff W) ++ sides "tick-length" (c_ticklen W) ++
    dims "title" c_title ++ sides "title" c_title ++ every "title-font" (c_tfont W) ++ sides "title-font" (c_tfont W) ++
    every "title-font-size" (c_tsize W E) ++ sides "title-font-size" (c_tsize W E) ++
    every "title-color" (c_tcolor W E) ++ sides "title-color" (c_tcolor W E) ++ sides "title-offset" (c_toff W) ++
    sides "title-padding" (c_tpad W) ++ sides "title-rotate" (c_trotate W) ++
    margin_entries W E x_margins (fun m s => mk_axes (x_axes s) m) ++
    every "border-width" (c_bwidth W E) ++ sides "border-width" (c_bwidth W E) ++
    every "border-color" (c_bcolor W E) ++ sides "border-color" (c_bcolor W E) ++
    every "border-style" c_bstyle ++ sides "border-style" c_bstyle ++
    [(s_ "font", on_all all4 [c_lfont W; c_tfont W]); (s_ "font-size", on_all all4 [c_tsize W E; c_lsize W E])].
  Lemma table_used k : assoc k (axes_table W E) = assoc k (table1 ++ table2).
  Proof.
    change (axes_table W E) with (table1 ++ dims "label-placement" (c_tickplace W) ++ table2).
    rewrite !assoc_app. destruct (assoc k table1) eqn:A; [reflexivity|].
    replace (assoc k (dims "label-placement" (c_tickplace W))) with (@None (cmd axes_cfg)); [reflexivity|].
    symmetry. apply assoc_none_keys. apply assoc_none_keys in A. intro X. apply A.
    destruct X as [<-|[<-|[]]].
    - do 13 right. left. reflexivity.
    - do 14 right. left. reflexivity.
  Qed.
  Lemma every_at i (c : list (cmd axis)) is e : NoDup is -> forall s s', length (x_axes s) = 4%nat -> on_all is c e s = Ret s' ->
    length (x_axes s') = 4%nat /\
    if existsb (Nat.eqb i) is then call_each c e (at_side i s) = Ret (at_side i s') else at_side i s' = at_side i s.
  Proof.
    intro ND. unfold on_all. induction c as [|c0 c IH]; intros s s' L H.
    - cbn in H. injection H as <-. split; [exact L|]. now destruct (existsb _ is).
    - cbn [flat_map] in H.
      assert (Ap : forall f1 f2 s1, call_each (f1 ++ f2) e s1 = let* s2 := call_each f1 e s1 in call_each (S := axes_cfg) f2 e s2).
      { induction f1 as [|f f1 IHf]; intros; [reflexivity|]. cbn [app call_each]. destruct (f e s1); cbn [bind]; auto. }
      rewrite Ap in H. inv_bind H. 
      assert (M : length (x_axes v) = 4%nat /\ if existsb (Nat.eqb i) is then c0 e (at_side i s) = Ret (at_side i v) else at_side i v = at_side i s).
      { clear - ND A L. revert s L A. induction is as [|j r IHr]; intros s L A.
        - cbn in A. injection A as <-. cbn [existsb]. auto.
        - cbn [map call_each] in A. inv_bind A. inversion ND as [|? ? NI ND']; subst. cbn [existsb].
          assert (L' : length (x_axes v0) = 4%nat) by (rewrite (on_length _ _ _ _ _ A0); exact L).
          destruct (IHr ND' v0 L' A) as [L2 Q]. split; [exact L2|].
          destruct (Nat.eqb_spec i j) as [->|D]; cbn [orb].
          + assert (existsb (Nat.eqb j) r = false) as R.
            { apply Bool.not_true_is_false. intro X. apply existsb_exists in X as (y & Y & Z). apply Nat.eqb_eq in Z. subst. contradiction. }
            rewrite R in Q. rewrite Q. now apply on_same.
          + rewrite (on_other i j _ _ _ _ D A0) in Q. exact Q. }
      destruct M as [L1 M]. destruct (IH v s' L1 H) as [L2 Q]. split; [exact L2|].
      destruct (existsb (Nat.eqb i) is).
      + cbn [call_each]. rewrite M. exact Q.
      + congruence.
  Qed.
  Lemma one_at i j (c : cmd axis) e s s' : length (x_axes s) = 4%nat -> on j c e s = Ret s' ->
    length (x_axes s') = 4%nat /\ if (i =? j)%nat then c e (at_side i s) = Ret (at_side i s') else at_side i s' = at_side i s.
  Proof.
    intros L H. split; [now rewrite (on_length _ _ _ _ _ H)|]. destruct (Nat.eqb_spec i j) as [->|D]; [now apply on_same|now apply (on_other i j c e)].
  Qed.
  Lemma margin_at i (f : xr -> axes_cfg -> axes_cfg) a s s' : (forall v s, x_axes (f v s) = x_axes s) -> length (x_axes s) = 4%nat ->
    upd (rd_size W E) f a s = Ret s' -> length (x_axes s') = 4%nat /\ at_side i s' = at_side i s.
  Proof. intros K L H. unfold upd in H. inv_bind H. injection H as <-. unfold at_side. now rewrite K. Qed.
  Lemma position_at i a s s' : (i < 4)%nat -> length (x_axes s) = 4%nat -> c_position a s = Ret s' ->
    length (x_axes s') = 4%nat /\
    Ret (set_a_enable (existsb (fun x => is_word [x] (side_name (nth i the_sides AX))) a) (at_side i s)) = Ret (at_side i s').
  Proof.
    intros I L H. split; [|now rewrite (position_side i a s s' I L H)].
    unfold c_position in H. inv_bind H. injection H as <-. cbn [x_axes]. rewrite <- L, <- (map_length (set_a_enable false) (x_axes s)).
    revert v A. generalize (map (set_a_enable false) (x_axes s)). induction a as [|e r IH]; intros l v A.
    - injection A as <-. reflexivity.
    - cbn [enable_sides] in A. destruct (side_index e) as [j|]; [|discriminate]. destruct (nth_error l j); [|discriminate].
      rewrite (IH _ _ A). apply set_nth_length.
  Qed.
  Ltac entry i :=
    let a := fresh "a" in let s := fresh "s" in let s' := fresh "s'" in let L := fresh "L" in let H := fresh "H" in let H1 := fresh "H1" in let H2 := fresh "H2" in
    intros a s s' L H; cbn [fst snd] in H |- *;
    lazymatch type of H with
    | on _ _ _ _ = _ => apply (one_at i) in H as [H1 H2]; [|exact L]; split; [exact H1|]; look_up; exact H2
    | on_all _ _ _ _ = _ => apply (every_at i) in H as [H1 H2]; [|assumption|exact L]; split; [exact H1|]; look_up; cbn [existsb all4 xs_ ys_ Nat.eqb orb] in H2;
           first [exact H2 | cbn [call_each] in H2; apply bind_ret in H2; destruct H2 as (? & H2 & H3); injection H3 as <-; exact H2]
    | c_position _ _ = _ => apply (position_at i) in H as [H1 H2]; [|lia|exact L]; split; [exact H1|]; look_up; exact H2
    | upd _ _ _ _ = _ => apply (margin_at i) in H as [H1 H2]; [|reflexivity|exact L]; split; [exact H1|]; look_up; exact H2
    | call_each _ _ _ = _ => cbn [call_each] in H; split_binds; subst;
        repeat match goal with
        | H : upd _ _ _ ?u = Ret ?v, L : length (x_axes ?u) = _ |- _ => let Q1 := fresh in let Q2 := fresh in apply (margin_at i) in H as [Q1 Q2]; [|reflexivity|exact L] end;
        split; [assumption|]; look_up; congruence
    end.
  Lemma table_at i : (i < 4)%nat -> Forall (entry_at i (side_table W E (nth i the_sides AX))) (table1 ++ table2).
  Proof.
    intro I.
    assert (ND4 : NoDup all4) by (repeat constructor; cbn; intuition discriminate).
    assert (NDx : NoDup xs_) by (repeat constructor; cbn; intuition discriminate).
    assert (NDy : NoDup ys_) by (repeat constructor; cbn; intuition discriminate).
    destruct i as [|[|[|[|i]]]]; [| | | |lia]; cbn [nth the_sides].
    - repeat (apply Forall_cons; [entry 0%nat|]). apply Forall_nil.
    - repeat (apply Forall_cons; [entry 1%nat|]). apply Forall_nil.
    - repeat (apply Forall_cons; [entry 2%nat|]). apply Forall_nil.
    - repeat (apply Forall_cons; [entry 3%nat|]). apply Forall_nil.
  Qed.
  (** Each axis is configured by the options for its side. *)
  Lemma axes_sides p e c : run (axes_table W E) e (axes0 W E p) = Ret c ->
    exists axes, x_axes c = axes /\ Forall2 (side_axis W E p e) the_sides axes.
  Proof.
    intro H.
    assert (R : forall i, (i < 4)%nat -> length (x_axes c) = 4%nat /\
      options (side_table W E (nth i the_sides AX)) e (at_side i (axes0 W E p)) = Ret (at_side i c)).
    { intros i I. apply (run_at i (axes_table W E)); [|reflexivity|exact H]. intros k f A. rewrite table_used in A.
      pose proof (table_at i I) as T. rewrite Forall_forall in T. apply T. now apply assoc_In. }
    exists (x_axes c). split; [reflexivity|]. pose proof (R 0%nat ltac:(lia)) as [L R0]. pose proof (R 1%nat ltac:(lia)) as [_ R1].
    pose proof (R 2%nat ltac:(lia)) as [_ R2]. pose proof (R 3%nat ltac:(lia)) as [_ R3]. unfold at_side in *. unfold side_axis.
    destruct (x_axes c) as [|a0 [|a1 [|a2 [|a3 [|]]]]]; try discriminate. cbn [nth the_sides x_axes axes0] in *.
    repeat constructor; assumption.
  Qed.
End Sides.

(** A part of the state that only the options [keys] change. *)
Definition keeps {S T} (pr : S -> T) (c : cmd S) : Prop := forall a s s', c a s = Ret s' -> pr s' = pr s.
Lemma options_kept {S T} (pr : S -> T) (keys : list str) (tbl : list (str * cmd S)) :
  Forall (fun kf => existsb (str_eqb (fst kf)) keys = true \/ keeps pr (snd kf)) tbl ->
  forall l s s', (forall k, In k keys -> last_args k l = None) -> options tbl l s = Ret s' -> pr s' = pr s.
Proof.
  intros F. induction l as [|e l IH]; intros s s' N H; [now injection H as <-|]. rewrite options_cons in H.
  destruct (option_of e) as [[k a]|] eqn:O; [|discriminate].
  assert (N' : forall k', In k' keys -> last_args k' l = None /\ k <> k').
  { intros k' I. specialize (N k' I). cbn [last_args] in N. rewrite O in N. destruct (last_args k' l); [discriminate|].
    split; [reflexivity|]. intros ->. now rewrite str_eqb_refl in N. }
  destruct (assoc k tbl) as [f|] eqn:A; [|apply IH; [apply N'|exact H]].
  inv_bind H. rewrite (IH _ _ (fun k' I => proj1 (N' k' I)) H). apply assoc_In in A. rewrite Forall_forall in F.
  destruct (F _ A) as [X|X]; [|exact (X _ _ _ A0)]. cbn [fst] in X. apply existsb_exists in X as (k' & I & Q).
  destruct (str_eqb_spec k k') as [->|]; [|discriminate]. now destruct (N' k' I).
Qed.
Ltac kept1 := let a := fresh in let s := fresh in let s' := fresh in let H := fresh in
     intros a s s' H; cbv [upd updf call_each c_scale c_limit c_lplace c_tickplace c_lformat c_attach c_loff c_lpad c_lrotate c_lfont c_lsize c_lcolor c_tickoff c_ticklen c_title c_tfont c_tsize c_tcolor c_toff c_tpad c_trotate c_bwidth c_bcolor c_bstyle] in H; split_binds; subst; reflexivity.
Ltac kept := repeat (apply Forall_cons; [cbn [fst snd In]; first [left; tauto | right; kept1]|]); apply Forall_nil.

Section Kept.
  Variables (W : world) (E : env).
  Lemma table_kept {T} (pr : axis -> T) (names extra : list string) g :
    Forall (fun nc => In (fst nc) names \/ keeps pr (snd nc)) (axis_settings W E) ->
    keeps pr (call_each [c_lfont W; c_tfont W]) -> keeps pr (call_each [c_tsize W E; c_lsize W E]) ->
    (In "position"%string extra \/ forall b a, pr (set_a_enable b a) = pr a) ->
    Forall (fun kf => existsb (str_eqb (fst kf)) (side_keys g names ++ map s_ extra) = true \/ keeps pr (snd kf)) (side_table W E g).
  Proof.
    intros F K1 K2 K3.
    assert (Mem : forall k ks, In k ks -> existsb (str_eqb k) ks = true).
    { intros k ks I. apply existsb_exists. exists k. split; [exact I|apply str_eqb_refl]. }
    unfold side_table. apply Forall_app. split.
    - apply Forall_forall. intros [k c] I. apply in_flat_map in I as ([n c'] & I & J). rewrite Forall_forall in F. specialize (F _ I). cbn [fst snd] in *.
      assert (c = c') by (destruct J as [J|[J|[J|[]]]]; congruence). subst c'. destruct F as [F|F]; [left|now right].
      apply Mem, in_or_app. left. unfold side_keys. apply in_flat_map. exists n. split; [exact F|].
      destruct J as [J|[J|[J|[]]]]; injection J as <-; cbn; tauto.
    - repeat apply Forall_cons; try apply Forall_nil; cbn [fst snd]; auto.
      destruct K3 as [K3|K3]; [left; apply Mem, in_or_app; right; now apply in_map|right].
      intros a s s' H. injection H as <-. apply K3.
  Qed.
  Lemma side_kept {T} (pr : axis -> T) (names : list string) g e a0 a :
    Forall (fun nc => In (fst nc) names \/ keeps pr (snd nc)) (axis_settings W E) ->
    keeps pr (call_each [c_lfont W; c_tfont W]) -> keeps pr (call_each [c_tsize W E; c_lsize W E]) ->
    (forall b a, pr (set_a_enable b a) = pr a) ->
    options (side_table W E g) e a0 = Ret a ->
    (forall k, In k (side_keys g names) -> last_args k e = None) -> pr a = pr a0.
  Proof.
    intros F K1 K2 K3 O N. revert O. apply (options_kept pr (side_keys g names ++ map s_ []) _ (table_kept pr names [] g F K1 K2 (or_intror K3))).
    cbn [map]. now rewrite app_nil_r.
  Qed.
  Lemma side_scale_kept g e a0 a : options (side_table W E g) e a0 = Ret a ->
    (forall k, In k (side_keys g ["scale"; "limit"]%string) -> last_args k e = None) -> a_scale a = a_scale a0.
  Proof.
    intros O N. apply (side_kept a_scale ["scale"; "limit"]%string g e a0 a); try exact O; try exact N; [kept|kept1|kept1|reflexivity].
  Qed.
  Lemma side_lplace_kept g e a0 a : options (side_table W E g) e a0 = Ret a ->
    (forall k, In k (side_keys g ["label-placement"]%string) -> last_args k e = None) -> a_lplace a = a_lplace a0.
  Proof.
    intros O N. apply (side_kept a_lplace ["label-placement"]%string g e a0 a); try exact O; try exact N; [kept|kept1|kept1|reflexivity].
  Qed.
  Lemma side_tickplace_kept g e a0 a : options (side_table W E g) e a0 = Ret a ->
    (forall k, In k (side_keys g ["tick-placement"]%string) -> last_args k e = None) -> a_tickplace a = a_tickplace a0.
  Proof.
    intros O N. apply (side_kept a_tickplace ["tick-placement"]%string g e a0 a); try exact O; try exact N; [kept|kept1|kept1|reflexivity].
  Qed.
  Lemma side_lformat_kept g e a0 a : options (side_table W E g) e a0 = Ret a ->
    (forall k, In k (side_keys g ["label-format"]%string) -> last_args k e = None) -> a_lformat a = a_lformat a0.
  Proof.
    intros O N. apply (side_kept a_lformat ["label-format"]%string g e a0 a); try exact O; try exact N; [kept|kept1|kept1|reflexivity].
  Qed.
  Lemma side_title_kept g e a0 a : options (side_table W E g) e a0 = Ret a ->
    (forall k, In k (side_keys g ["title"]%string) -> last_args k e = None) -> a_title a = a_title a0.
  Proof.
    intros O N. apply (side_kept a_title ["title"]%string g e a0 a); try exact O; try exact N; [kept|kept1|kept1|reflexivity].
  Qed.
  Lemma side_align_kept g e a0 a : options (side_table W E g) e a0 = Ret a ->
    (forall k, In k (side_keys g []%string) -> last_args k e = None) -> a_align a = a_align a0.
  Proof.
    intros O N. apply (side_kept a_align []%string g e a0 a); try exact O; try exact N; [kept|kept1|kept1|reflexivity].
  Qed.
  Lemma side_enable_kept g e a0 a : options (side_table W E g) e a0 = Ret a ->
    last_args (s_ "position") e = None -> a_enable a = a_enable a0.
  Proof.
    intros O N. revert O. apply (options_kept a_enable (side_keys g [] ++ map s_ ["position"]%string)).
    - apply table_kept; [kept|kept1|kept1|left; now left].
    - intros k [<-|[]]. exact N.
  Qed.
End Kept.
