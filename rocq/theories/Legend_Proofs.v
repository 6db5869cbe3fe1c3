(** Lemmas for Legend_Props.v. *)
From Verif Require Import Base Num Sexpr_Model Geo_Model Geo_Proofs Legend_Model Legend_Spec.
From Coq Require Import Lra.
Local Open Scope R_scope.

Definition rect_of (b : box) : rectangle := mk_rect (Fin (left_ b)) (Fin (top_ b)) (Fin (width b)) (Fin (height b)).
Definition sizes (l : list (R * R)) : list (xr * xr) := map (fun p => (Fin (fst p), Fin (snd p))) l.
Definition nonneg (p : R * R) : Prop := 0 <= fst p /\ 0 <= snd p.
Lemma xlt_fin2 a b : xlt (Fin a) (Fin b) = if Rlt_dec a b then true else false.
Proof. reflexivity. Qed.
Lemma add_ex a b : xadd exact (Fin a) (Fin b) = Fin (a + b).
Proof. reflexivity. Qed.
Lemma fop_app {A} (R : A -> A -> Prop) a b : ForallOrdPairs R a -> ForallOrdPairs R b ->
  (forall x y, In x a -> In y b -> R x y) -> ForallOrdPairs R (a ++ b).
Proof.
  induction 1 as [|x a F _ IH]; intros B C; [exact B|]. cbn [app]. constructor.
  - apply Forall_app. split; [exact F|]. rewrite Forall_forall. intros y I. apply C; [now left|exact I].
  - apply IH; [exact B|]. intros; apply C; [now right|assumption].
Qed.

Lemma rows_ok pad items : 0 <= pad -> Forall nonneg items -> forall mw mh, 0 <= mw -> 0 <= mh ->
  exists W H bs, rows_ exact (Fin pad) (sizes items) (Fin mw) (Fin mh) = (Fin W, Fin H, map rect_of bs) /\
    map size bs = items /\ ForallOrdPairs (under pad) bs /\
    Forall (fun b => left_ b = 0 /\ mh <= top_ b /\ (0 < mh -> mh + pad <= top_ b) /\ width b <= W /\ top_ b + height b <= H) bs /\
    mw <= W /\ mh <= H /\ (W = mw \/ Exists (fun b => width b = W) bs) /\
    match bs with [] => H = mh | _ => Exists (fun b => top_ b + height b = H) bs end.
Proof.
  intros P F. induction F as [|[w h] items [Nw Nh] F IH]; intros mw mh Mw Mh.
  - exists mw, mh, []. cbn. repeat split; try lra; try constructor; auto.
  - cbn [fst snd] in *. cbn [sizes map rows_ fst snd]. rewrite xlt_fin2, xmax_fin.
    set (m := if Rlt_dec 0 mh then mh + pad else mh).
    assert (M : mh <= m /\ (0 < mh -> mh + pad <= m) /\ 0 <= m) by (unfold m; destruct (Rlt_dec 0 mh); lra).
    assert (E : (if if Rlt_dec 0 mh then true else false then xadd exact (Fin mh) (Fin pad) else Fin mh) = Fin m)
      by (unfold m; destruct (Rlt_dec 0 mh); reflexivity).
    rewrite E, add_ex. clearbody m. clear E.
    pose proof (Rmax_l mw w). pose proof (Rmax_r mw w).
    destruct (IH (Rmax mw w) (m + h)) as (W & H' & bs & Q & S1 & O & B & L1 & L2 & T1 & T2); try lra.
    change (map (fun p : R * R => (Fin (fst p), Fin (snd p))) items) with (sizes items). rewrite Q.
    exists W, H', (mk_box 0 m w h :: bs). split; [reflexivity|].
    split; [cbn [map size width height]; now rewrite S1|].
    split.
    { constructor; [|exact O]. eapply Forall_impl; [|exact B]. intros b (_ & A2 & A3 & _). split; cbn; [lra|]. intro. apply A3. lra. }
    split.
    { constructor.
      - cbn. repeat split; try lra.
      - eapply Forall_impl; [|exact B]. cbv beta. intros b (A1 & A2 & A3 & A4 & A5). repeat split; try lra. }
    split; [lra|]. split; [lra|]. split.
    { destruct T1 as [->|T1]; [|right; now right]. destruct (Rle_dec w mw).
      - left. apply Rmax_left. lra.
      - right. left. cbn. rewrite Rmax_right; lra. }
    destruct bs as [|b bs]; [left; cbn; lra|right; exact T2].
Qed.

(** The state of the flow layout, with real numbers. *)
Section Flow.
  Variables (limit : option R) (rp cp : R).
  Hypothesis RP : 0 <= rp.
  Hypothesis CP : 0 <= cp.
  Definition order (a b : box) : Prop := beside cp a b \/ under rp a b.
  Definition fit_or_first (b : box) : Prop := left_ b = 0 \/ fits limit (left_ b + width b).
  Definition set_h (h : R) (b : box) : box := mk_box (left_ b) (top_ b) (width b) h.
  Lemma map_rect_h h l : map (with_h (Fin h)) (map rect_of l) = map rect_of (map (set_h h) l).
  Proof. rewrite !map_map. reflexivity. Qed.

  Record state (mw mh rw rh : R) (done row : list box) : Prop := {
    s_mw : 0 <= rw <= mw; s_mh : 0 <= mh; s_rh : 0 <= rh;
    s_done : Forall (fun b => 0 <= left_ b /\ 0 <= top_ b /\ 0 <= width b /\ 0 <= height b /\ left_ b + width b <= mw /\
                              top_ b + height b + rp <= mh) done;
    s_row : Forall (fun b => 0 <= left_ b /\ 0 <= width b /\ left_ b + width b <= rw /\ (0 < width b -> 0 < rw) /\ top_ b = mh /\ height b = rh) row;
    s_order : ForallOrdPairs order done;
    s_beside : ForallOrdPairs (beside cp) row;
    s_fit : Forall fit_or_first (done ++ row) }.

  Lemma order_all mw mh rw rh done row : state mw mh rw rh done row -> ForallOrdPairs order (done ++ row).
  Proof.
    intro S. apply fop_app; [exact (s_order _ _ _ _ _ _ S)| |].
    - pose proof (s_beside _ _ _ _ _ _ S) as B. clear - B. induction B as [|a l F _ IH]; constructor; [|exact IH].
      eapply Forall_impl; [|exact F]. intros; now left.
    - intros a b I J. pose proof (s_done _ _ _ _ _ _ S) as D. rewrite Forall_forall in D. specialize (D a I).
      pose proof (s_row _ _ _ _ _ _ S) as E. rewrite Forall_forall in E. specialize (E b J).
      right. split; [lra|intro; lra].
  Qed.
  Lemma fop_map_h (h : R) l : ForallOrdPairs (beside cp) l -> ForallOrdPairs (beside cp) (map (set_h h) l).
  Proof.
    induction 1 as [|a l F _ IH]; cbn [map]; constructor; [|exact IH]. rewrite Forall_map. eapply Forall_impl; [|exact F].
    intros b (A & _ & C & D). repeat split; cbn; auto.
  Qed.
  Lemma wrap_state mw mh rw rh done row : state mw mh rw rh done row -> state mw (mh + (rh + rp)) 0 0 (done ++ row) [].
  Proof.
    intro S. pose proof S as [A B C D E F G H]. constructor; try lra.
    - apply Forall_app. split; [eapply Forall_impl; [|exact D]|eapply Forall_impl; [|exact E]]; cbv beta; intros b K; lra.
    - constructor.
    - now apply (order_all _ _ _ _ _ _ S).
    - constructor.
    - rewrite app_nil_r. exact H.
  Qed.
  Lemma add_state mw mh rw rh s done row w h : state mw mh rw rh done row -> 0 <= w -> 0 <= h -> rw <= s ->
    (0 < rw -> rw + cp <= s) -> (s = 0 \/ fits limit (s + w)) ->
    state (Rmax mw (s + w)) mh (s + w) (Rmax rh h) done (map (set_h (Rmax rh h)) (row ++ [mk_box s mh w h])).
  Proof.
    intros S W H L1 L2 FT. pose proof S as [A B C D E F G K].
    pose proof (Rmax_l mw (s + w)). pose proof (Rmax_r mw (s + w)). pose proof (Rmax_l rh h).
    constructor; try lra.
    - eapply Forall_impl; [|exact D]. cbv beta. intros b Q. lra.
    - rewrite map_app. cbn [map]. apply Forall_app. split.
      + rewrite Forall_map. eapply Forall_impl; [|exact E]. cbv beta. intros b Q. cbn [set_h left_ top_ width height]. repeat split; try lra.
      + constructor; [|constructor]. cbn [set_h left_ top_ width height]. repeat split; try lra.
    - exact F.
    - rewrite map_app. apply fop_app; [now apply fop_map_h|cbn [map]; constructor; constructor|].
      intros a b I J. cbn [map] in J. destruct J as [<-|[]]. apply in_map_iff in I as (a0 & <- & I).
      rewrite Forall_forall in E. specialize (E a0 I). unfold beside. cbn [set_h left_ top_ width height].
      repeat split; try lra.
    - apply Forall_app in K as [K1 K2]. apply Forall_app. split; [exact K1|]. rewrite map_app. apply Forall_app. split.
      + rewrite Forall_map. eapply Forall_impl; [|exact K2]. intros b Q. exact Q.
      + cbn [map]. constructor; [|constructor]. unfold fit_or_first. cbn [set_h left_ width]. exact FT.
  Qed.

  Lemma flow_ok items : Forall nonneg items -> forall mw mh rw rh done row, state mw mh rw rh done row ->
    exists W H new, flow_ exact (option_map Fin limit) (Fin rp) (Fin cp) (sizes items) (Fin mw) (Fin mh) (Fin rw) (Fin rh)
        (map rect_of done) (map rect_of row) = (Fin W, Fin H, map rect_of new) /\
      ForallOrdPairs order new /\ Forall (within W H) new /\ Forall fit_or_first new /\
      map width new = map width (done ++ row) ++ map fst items /\
      Forall2 Rle (map height (done ++ row) ++ map snd items) (map height new).
  Proof.
    induction 1 as [|[w h] items [Nw Nh] F IH]; intros mw mh rw rh done row S.
    - cbn [sizes map flow_]. rewrite add_ex, <- map_app. exists mw, (mh + rh), (done ++ row). split; [reflexivity|].
      split; [now apply (order_all _ _ _ _ _ _ S)|]. pose proof S as [A B C D E G K L].
      split; [|split; [exact L|split; [now rewrite app_nil_r|rewrite app_nil_r]]].
      + apply Forall_app. split; [eapply Forall_impl; [|exact D]|eapply Forall_impl; [|exact E]]; cbv beta; intros b Q; unfold within; lra.
      + clear. induction (done ++ row) as [|b l IH]; cbn [map]; constructor; [lra|exact IH].
    - cbn [fst snd] in Nw, Nh. cbn [sizes map flow_ fst snd]. rewrite xlt_fin2.
      set (s := if Rlt_dec 0 rw then rw + cp else rw).
      assert (E : (if if Rlt_dec 0 rw then true else false then xadd exact (Fin rw) (Fin cp) else Fin rw) = Fin s)
        by (unfold s; destruct (Rlt_dec 0 rw); reflexivity).
      rewrite E, add_ex. clear E.
      assert (L1 : rw <= s) by (unfold s; destruct (Rlt_dec 0 rw); lra).
      assert (L2 : 0 < rw -> rw + cp <= s) by (unfold s; destruct (Rlt_dec 0 rw); lra).
      clearbody s. change (map (fun p : R * R => (Fin (fst p), Fin (snd p))) items) with (sizes items).
      assert (STEP : forall mh rw rh done2 row2 s, state mw mh rw rh done2 row2 -> rw <= s -> (0 < rw -> rw + cp <= s) -> (s = 0 \/ fits limit (s + w)) ->
        map width (done2 ++ row2) = map width (done ++ row) -> map height (done2 ++ row2) = map height (done ++ row) ->
        exists W H new, flow_ exact (option_map Fin limit) (Fin rp) (Fin cp) (sizes items) (xmax (Fin mw) (xadd exact (Fin s) (Fin w)))
           (Fin mh) (xadd exact (Fin s) (Fin w)) (xmax (Fin rh) (Fin h)) (map rect_of done2)
           (map (with_h (xmax (Fin rh) (Fin h))) (map rect_of row2 ++ [mk_rect (Fin s) (Fin mh) (Fin w) (Fin h)])) = (Fin W, Fin H, map rect_of new) /\
          ForallOrdPairs order new /\ Forall (within W H) new /\ Forall fit_or_first new /\
          map width new = map width (done ++ row) ++ w :: map fst items /\
          Forall2 Rle (map height (done ++ row) ++ h :: map snd items) (map height new)).
      { clear s L1 L2 S rw mh rh. intros mh rw rh done2 row2 s S L1 L2 FT WE HE.
        rewrite add_ex, !xmax_fin. change [mk_rect (Fin s) (Fin mh) (Fin w) (Fin h)] with (map rect_of [mk_box s mh w h]).
        rewrite <- map_app, map_rect_h.
        destruct (IH _ _ _ _ _ _ (add_state _ _ _ _ s _ _ w h S Nw Nh L1 L2 FT)) as (W & H & new & Q & O & I & FF & WW & HH).
        exists W, H, new. split; [exact Q|]. split; [exact O|]. split; [exact I|]. split; [exact FF|]. split.
        - rewrite WW, <- WE, !map_app, !map_map. cbn [map set_h width]. rewrite <- !app_assoc. reflexivity.
        - assert (T : Forall2 Rle (map height (done ++ row) ++ h :: map snd items)
            (map height (done2 ++ map (set_h (Rmax rh h)) (row2 ++ [mk_box s mh w h])) ++ map snd items)).
          { rewrite <- HE, !map_app, !map_map. cbn [map set_h height]. rewrite <- !app_assoc. cbn [app].
            assert (RF : forall l, Forall2 Rle l l) by (induction l; constructor; [lra|assumption]).
            apply Forall2_app; [apply RF|]. pose proof (s_row _ _ _ _ _ _ S) as SR. pose proof (Rmax_l rh h) as ML. pose proof (Rmax_r rh h) as MR.
            clear - SR RF ML MR. induction SR as [|b l B SR IH2]; cbn [map app]; constructor; auto; lra. }
          revert T HH. generalize (map height (done2 ++ map (set_h (Rmax rh h)) (row2 ++ [mk_box s mh w h])) ++ map snd items).
          clear. intros l2 T HH. revert T. generalize (map height (done ++ row) ++ h :: map snd items). intros l1 T.
          revert HH. generalize (map height new). intros l3 HH. revert l3 HH. induction T as [|a b l1 l2 AB T IHT]; intros l3 HH; inversion HH; subst; constructor; [lra|auto]. }
      destruct limit as [m|] eqn:LM; cbn [option_map].
      + rewrite xlt_fin2. destruct (Rlt_dec m (s + w)) as [X|X]; cbn [fst snd].
        * rewrite !add_ex, <- map_app. apply (STEP (mh + (rh + rp)) 0 0 (done ++ row) [] 0); [exact (wrap_state _ _ rw _ _ _ S)|lra|lra|now left|now rewrite app_nil_r|now rewrite app_nil_r].
        * apply (STEP mh rw rh done row s); auto. right. cbn [fits]. lra.
      + apply (STEP mh rw rh done row s); auto. right. exact I.
  Qed.

  (** Consecutive boxes. *)
  Definition last_is (l : list box) (a : box) : Prop := exists l', l = l' ++ [a].
  Definition same_row (a b : box) : Prop :=
    let e := left_ a + width a in
    let s := if Rlt_dec 0 e then e + cp else e in
    fits limit (s + width b) /\ left_ b = s.
  Lemma chain_app {A} (R : A -> A -> Prop) l a b r : chain R (l ++ [a]) -> R a b -> chain R (b :: r) -> chain R (l ++ a :: b :: r).
  Proof.
    induction l as [|x l IH]; intros C Rab D; [cbn [app chain]; split; assumption|].
    destruct l as [|y l]; [cbn [app chain] in *; tauto|].
    cbn [app] in *. cbn [chain] in C. destruct C as [C1 C2]. split; [exact C1|]. apply IH; assumption.
  Qed.
  Lemma chain_impl {A} (R Q : A -> A -> Prop) l : (forall a b, R a b -> Q a b) -> chain R l -> chain Q l.
  Proof.
    intro I. induction l as [|a l IH]; [trivial|]. destruct l as [|b l]; [trivial|]. intros [X Y]. split; [now apply I|now apply IH].
  Qed.
  Lemma chain_set_h h l : chain same_row l -> chain same_row (map (set_h h) l).
  Proof.
    induction l as [|a l IH]; [trivial|]. destruct l as [|b l]; [trivial|]. cbn [map chain]. intros [X Y]. split; [|apply IH; exact Y].
    unfold same_row in *. cbn [set_h left_ width top_ height]. tauto.
  Qed.
  Lemma chain_next mh rh l : chain same_row l -> Forall (fun b => top_ b = mh /\ height b = rh) l -> chain (next limit rp cp) l.
  Proof.
    induction l as [|a l IH]; [trivial|]. destruct l as [|b l]; [trivial|]. intros [X Y] F. inversion F as [|? ? F1 F2]; subst.
    split; [|now apply IH]. inversion F2 as [|? ? F3 _]; subst. destruct X as [X1 X2]. left. destruct F1, F3. repeat split; auto; congruence.
  Qed.
  Definition new_row (a b : box) : Prop :=
    let e := left_ a + width a in
    let s := if Rlt_dec 0 e then e + cp else e in
    ~ fits limit (s + width b) /\ left_ b = 0 /\ top_ b = top_ a + height a + rp.
  (** The boxes so far, in front of the next item. *)
  Definition first_ok (l : list box) : Prop :=
    match l with
    | [] => True
    | b :: _ => left_ b = 0 /\ (fits limit (width b) -> top_ b = 0) /\ (~ fits limit (width b) -> top_ b = rp)
    end.
  Record cstate (mh rw rh : R) (done row : list box) : Prop := {
    c_done : chain (next limit rp cp) done;
    c_row : chain same_row row;
    c_sep : forall a l b r, done = l ++ [a] -> row = b :: r -> new_row a b;
    c_rowh : Forall (fun b => top_ b = mh /\ height b = rh) row;
    c_last : forall l a, row = l ++ [a] -> left_ a + width a = rw;
    c_empty : row = [] -> done = [] /\ mh = 0 /\ rw = 0 /\ rh = 0;
    c_first : first_ok (done ++ row) }.
  Lemma chain_next_all mh rw rh done row : cstate mh rw rh done row -> chain (next limit rp cp) (done ++ row).
  Proof.
    intros [A B C D _ _ _]. destruct row as [|b r]; [now rewrite app_nil_r|].
    destruct done as [|x y]; [exact (chain_next _ _ _ B D)|].
    destruct (@exists_last _ (x :: y) ltac:(discriminate)) as (l & a & E). rewrite E in *. rewrite <- app_assoc. cbn [app].
    apply chain_app; [exact A|right; exact (C a l b r eq_refl eq_refl)|exact (chain_next _ _ _ B D)].
  Qed.
  Lemma last_inj {A} (l l' : list A) a b : l ++ [a] = l' ++ [b] -> l = l' /\ a = b.
  Proof. apply app_inj_tail. Qed.
  Lemma first_app l m : l <> [] -> first_ok (l ++ m) <-> first_ok l.
  Proof. destruct l; [congruence|]. reflexivity. Qed.
  Lemma first_ok_h l h : first_ok (map (set_h h) l) <-> first_ok l.
  Proof. destruct l; reflexivity. Qed.

  (** One more item in the row. *)
  Lemma c_add mh rw rh done row w h (s := if Rlt_dec 0 rw then rw + cp else rw) : cstate mh rw rh done row -> fits limit (s + w) ->
    cstate mh (s + w) (Rmax rh h) done (map (set_h (Rmax rh h)) (row ++ [mk_box s mh w h])).
  Proof.
    intros [A B C D E F G] FT. constructor.
    - exact A.
    - apply chain_set_h. destruct row as [|x y]; [exact I|].
      destruct (@exists_last _ (x :: y) ltac:(discriminate)) as (l & a & Q). rewrite Q in *. rewrite <- app_assoc. cbn [app].
      apply chain_app; [exact B| |exact I]. unfold same_row. cbn [left_ width]. rewrite (E l a eq_refl). fold s. auto.
    - intros a l b r X Y. destruct row as [|x y].
      + destruct (F eq_refl) as (-> & _). destruct l; discriminate.
      + cbn [app map] in Y. injection Y as <- _. destruct (C a l x y X eq_refl) as (C1 & C2 & C3).
        unfold new_row. cbn [set_h left_ width top_ height]. auto.
    - rewrite Forall_map. apply Forall_app. split; [|constructor; [|constructor]; cbn; auto].
      eapply Forall_impl; [|exact D]. cbn. tauto.
    - intros l a X. rewrite map_app in X. cbn [map] in X. apply last_inj in X as [_ <-]. reflexivity.
    - intro X. apply map_eq_nil in X. destruct row; discriminate.
    - destruct row as [|x y].
      + destruct (F eq_refl) as (-> & -> & -> & ->). cbn. unfold s in *. destruct (Rlt_dec 0 0) as [Z|Z]; [lra|].
        rewrite Rplus_0_l in FT. tauto.
      + destruct done; [|exact G]. exact G.
  Qed.
  (** An item that starts a new row. *)
  Lemma c_wrap mh rw rh done row w h (s := if Rlt_dec 0 rw then rw + cp else rw) : cstate mh rw rh done row -> ~ fits limit (s + w) ->
    0 <= h -> cstate (mh + (rh + rp)) (0 + w) (Rmax 0 h) (done ++ row) (map (set_h (Rmax 0 h)) ([] ++ [mk_box 0 (mh + (rh + rp)) w h])).
  Proof.
    intros S FT Hh. pose proof S as [A B C D E F G]. constructor.
    - exact (chain_next_all _ _ _ _ _ S).
    - exact I.
    - intros a l b r X Y. cbn [app map] in Y. injection Y as <- _. unfold new_row. cbn [set_h left_ width top_ height].
      destruct row as [|x y].
      + destruct (F eq_refl) as (-> & _). destruct l; discriminate.
      + destruct (@exists_last _ (x :: y) ltac:(discriminate)) as (l2 & a2 & Q). rewrite Q in *. rewrite app_assoc in X. apply last_inj in X as [_ ->].
        rewrite (E l2 a eq_refl). apply Forall_app in D as [_ D]. inversion D as [|? ? [D1 D2] _]; subst. fold s. repeat split; auto. lra.
    - constructor; [|constructor]. cbn. auto.
    - intros l a X. change (map _ _) with ([] ++ [set_h (Rmax 0 h) (mk_box 0 (mh + (rh + rp)) w h)]) in X. apply last_inj in X as [_ <-]. reflexivity.
    - discriminate.
    - destruct row as [|x y].
      + destruct (F eq_refl) as (-> & -> & -> & ->). cbn. unfold s in *. destruct (Rlt_dec 0 0) as [Z|Z]; [lra|].
        rewrite Rplus_0_l in FT. repeat split; [tauto|intro; lra].
      + rewrite first_app; [exact G|]. destruct done; discriminate.
  Qed.
  Lemma flow_chain items : Forall nonneg items -> forall mw mh rw rh done row, cstate mh rw rh done row ->
    exists W H new, flow_ exact (option_map Fin limit) (Fin rp) (Fin cp) (sizes items) (Fin mw) (Fin mh) (Fin rw) (Fin rh)
        (map rect_of done) (map rect_of row) = (Fin W, Fin H, map rect_of new) /\
      chain (next limit rp cp) new /\ first_ok new.
  Proof.
    induction 1 as [|[w h] items [Nw Nh] F IH]; intros mw mh rw rh done row S.
    - cbn [sizes map flow_]. rewrite add_ex, <- map_app. exists mw, (mh + rh), (done ++ row). split; [reflexivity|].
      split; [now apply (chain_next_all _ _ _ _ _ S)|exact (c_first _ _ _ _ _ S)].
    - cbn [fst snd] in Nw, Nh. cbn [sizes map flow_ fst snd]. rewrite xlt_fin2.
      pose proof (c_add mh rw rh done row w h S) as ADD. pose proof (c_wrap mh rw rh done row w h S) as WRAP. cbv zeta in ADD, WRAP.
      set (s := if Rlt_dec 0 rw then rw + cp else rw) in *.
      assert (E : (if if Rlt_dec 0 rw then true else false then xadd exact (Fin rw) (Fin cp) else Fin rw) = Fin s)
        by (unfold s; destruct (Rlt_dec 0 rw); reflexivity).
      rewrite E, add_ex. clear E. clearbody s.
      change (map (fun p : R * R => (Fin (fst p), Fin (snd p))) items) with (sizes items).
      assert (X : (match option_map Fin limit with Some m => xlt m (Fin (s + w)) | None => false end = true /\ ~ fits limit (s + w)) \/
                  (match option_map Fin limit with Some m => xlt m (Fin (s + w)) | None => false end = false /\ fits limit (s + w))).
      { destruct limit as [m|]; cbn; [|right; auto]. destruct (Rlt_dec m (s + w)); [left|right]; split; auto; lra. }
      destruct X as [[-> X]|[-> X]]; rewrite !add_ex, !xmax_fin.
      + change ([] ++ [mk_rect (Fin 0) (Fin (mh + (rh + rp))) (Fin w) (Fin h)])
          with (map rect_of ([] ++ [mk_box 0 (mh + (rh + rp)) w h])).
        rewrite map_rect_h, <- map_app. apply IH. now apply WRAP.
      + change [mk_rect (Fin s) (Fin mh) (Fin w) (Fin h)] with (map rect_of [mk_box s mh w h]).
        rewrite <- map_app, map_rect_h. apply IH. now apply ADD.
  Qed.
End Flow.

Definition page (a : area) : rectangle := mk_rect (Fin (ax a)) (Fin (ay a)) (Fin (aw a)) (Fin (ah a)).
Lemma sub_ex a b : xsub exact (Fin a) (Fin b) = Fin (a - b).
Proof. reflexivity. Qed.
Lemma mul_ex a b : xmul exact (Fin a) (Fin b) = Fin (a * b).
Proof. reflexivity. Qed.
Lemma margin_page a t r b l : l + r <= aw a -> t + b <= ah a ->
  layout_margin_box exact (page a) (Fin t) (Fin r) (Fin b) (Fin l) = page (inset a t r b l).
Proof.
  intros X Y. unfold layout_margin_box, page, inset. cbn [rx ry rw rh ax ay aw ah]. rewrite !add_ex, !sub_ex, !xmax_fin.
  rewrite !Rmax_left by lra. reflexivity.
Qed.
Lemma xmin_fin a b : xmin (Fin a) (Fin b) = Fin (Rmin a b).
Proof. apply Geo_Proofs.xmin_fin. Qed.

(** Boxes of either layout. *)
Definition good_layout (items : list (R * R)) (W H : R) (bs : list box) : Prop :=
  map width bs = map fst items /\ Forall2 Rle (map snd items) (map height bs) /\
  ForallOrdPairs disjoint bs /\ Forall (within W H) bs.
Lemma place_page c b : place exact (page c) (rect_of b) = page (on_page c b).
Proof. reflexivity. Qed.
Lemma disjoint_apart c a b : disjoint a b -> apart (on_page c a) (on_page c b).
Proof.
  intros D x y (A1 & A2 & A3 & A4). cbn in *. apply (D (x - ax c) (ay c + ah c - y)). lra.
Qed.
