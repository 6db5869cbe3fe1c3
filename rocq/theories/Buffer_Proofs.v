(** Buffers refine byte sequences. *)
From Verif Require Import Base Buffer_Model Buffer_Spec.

Lemma put_block_length h p b : length (put_block h p b) = length h.
Proof. revert p. induction h as [|x h IH]; intros [|p]; cbn; auto. Qed.
Lemma put_block_same h p b : p < length h -> nth_error (put_block h p b) p = Some b.
Proof. revert p. induction h as [|x h IH]; intros [|p] L; cbn in *; try lia; auto. apply IH. lia. Qed.
Lemma put_block_other h p q b : p <> q -> nth_error (put_block h p b) q = nth_error h q.
Proof. revert p q. induction h as [|x h IH]; intros [|p] [|q] N; cbn; auto; try congruence. Qed.
Lemma nth_live h p (blk : list cell) : nth_error h p = Some (Some blk) -> p < length h.
Proof. intro H. apply nth_error_Some. congruence. Qed.
Lemma nth_snoc_old (h : heap) x p blk : nth_error h p = Some (Some blk) -> nth_error (h ++ [x]) p = Some (Some blk).
Proof. intro H. rewrite nth_error_app1; auto. eapply nth_live; eauto. Qed.
Lemma nth_snoc_new (h : heap) x : nth_error (h ++ [x]) (length h) = Some x.
Proof. rewrite nth_error_app2, Nat.sub_diag by lia. reflexivity. Qed.

(** A buffer holds the bytes [v]. *)
Definition holds (h : heap) (b : buf) (v : list cell) : Prop :=
  b_size b = length v /\ b_size b <= b_alloc b /\
  match b_data b with
  | None => b_alloc b = 0
  | Some p => exists blk, nth_error h p = Some (Some blk) /\ length blk = b_alloc b /\ firstn (b_size b) blk = v
  end.
Record inv (s : state) (e : env) : Prop := mk_inv {
  inv_vars : forall i, match st_vars s i, e i with
                       | None, None => True
                       | Some b, Some v => holds (st_heap s) b v
                       | _, _ => False
                       end;
  inv_own : forall i j bi bj p, st_vars s i = Some bi -> st_vars s j = Some bj ->
              b_data bi = Some p -> b_data bj = Some p -> i = j }.

Lemma inv_get s e i v : inv s e -> e i = Some v -> exists b, st_vars s i = Some b /\ holds (st_heap s) b v.
Proof. intros H E. pose proof (inv_vars _ _ H i) as V. rewrite E in V. destruct (st_vars s i) as [b|]; [eauto|contradiction]. Qed.
Lemma inv_alive s e i : inv s e -> alive e i -> exists b v, st_vars s i = Some b /\ e i = Some v /\ holds (st_heap s) b v.
Proof.
  intros H A. unfold alive in A. destruct (e i) as [v|] eqn:E; [|congruence].
  destruct (inv_get _ _ _ _ H E) as (b & B & Hb). eauto.
Qed.
Lemma inv_dead s e i : inv s e -> e i = None -> st_vars s i = None.
Proof. intros H E. pose proof (inv_vars _ _ H i) as V. rewrite E in V. destruct (st_vars s i); [contradiction|auto]. Qed.
Lemma holds_frame h h' b v : holds h b v ->
  (forall p blk, b_data b = Some p -> nth_error h p = Some (Some blk) -> nth_error h' p = Some (Some blk)) -> holds h' b v.
Proof.
  intros (A & B & C) F. split; auto. split; auto. destruct (b_data b) as [p|]; auto.
  destruct C as (blk & C1 & C2). exists blk. split; auto.
Qed.

(** Changing one variable and its block. *)
Lemma inv_set s e h' i b v : inv s e -> holds h' b v ->
  (forall j bj p blk, j <> i -> st_vars s j = Some bj -> b_data bj = Some p ->
     nth_error (st_heap s) p = Some (Some blk) -> nth_error h' p = Some (Some blk) /\ b_data b <> Some p) ->
  inv (mk_state h' (set_var (st_vars s) i (Some b))) (bind_var e i (Some v)).
Proof.
  intros H N F. split.
  - intro j. cbn [st_vars st_heap]. unfold set_var, bind_var. destruct (Nat.eqb_spec j i) as [->|NE]; [exact N|].
    pose proof (inv_vars _ _ H j) as V. destruct (st_vars s j) as [bj|] eqn:B, (e j) as [vj|]; auto.
    eapply holds_frame; eauto. intros p blk D L. eapply F; eauto.
  - intros j k bj bk p. cbn [st_vars]. unfold set_var.
    assert (LIVE : forall m bm q, st_vars s m = Some bm -> b_data bm = Some q -> exists blk, nth_error (st_heap s) q = Some (Some blk)).
    { intros m bm q M D. pose proof (inv_vars _ _ H m) as V. rewrite M in V. destruct (e m); [|contradiction].
      destruct V as (_ & _ & V). rewrite D in V. destruct V as (blk & V & _). eauto. }
    destruct (Nat.eqb_spec j i) as [->|NJ], (Nat.eqb_spec k i) as [->|NK]; auto; intros Bj Bk Dj Dk.
    + injection Bj as <-. exfalso. destruct (LIVE _ _ _ Bk Dk) as (blk & L).
      destruct (F k bk p blk NK Bk Dk L) as [_ Q]. contradiction.
    + injection Bk as <-. exfalso. destruct (LIVE _ _ _ Bj Dj) as (blk & L).
      destruct (F j bj p blk NJ Bj Dj L) as [_ Q]. contradiction.
    + eapply inv_own; eauto.
Qed.
Lemma inv_drop s e h' i : inv s e ->
  (forall j bj p blk, j <> i -> st_vars s j = Some bj -> b_data bj = Some p ->
     nth_error (st_heap s) p = Some (Some blk) -> nth_error h' p = Some (Some blk)) ->
  inv (mk_state h' (set_var (st_vars s) i None)) (bind_var e i None).
Proof.
  intros H F. split.
  - intro j. cbn [st_vars st_heap]. unfold set_var, bind_var. destruct (Nat.eqb_spec j i) as [->|NE]; [exact I|].
    pose proof (inv_vars _ _ H j) as V. destruct (st_vars s j) as [bj|] eqn:B, (e j) as [vj|]; auto.
    eapply holds_frame; eauto.
  - intros j k bj bk p. cbn [st_vars]. unfold set_var.
    destruct (Nat.eqb_spec j i), (Nat.eqb_spec k i); try discriminate. intros. eapply inv_own; eauto.
Qed.
Lemma inv_ext s e e' : inv s e -> (forall i, e i = e' i) -> inv s e'.
Proof. intros [A B] E. split; auto. intro i. specialize (A i). now rewrite E in A. Qed.

Lemma load_holds h b v : holds h b v -> load h (b_data b) 0 (b_size b) = Ret v.
Proof.
  intros (A & B & C). unfold load. destruct (Nat.eqb_spec (b_size b) 0) as [Z|Z].
  - rewrite Z in A. destruct v; [reflexivity|discriminate].
  - destruct (b_data b) as [p|].
    + destruct C as (blk & -> & L & <-). cbn [skipn]. assert (0 + b_size b <=? length blk = true) as -> by (apply Nat.leb_le; lia). reflexivity.
    + lia.
Qed.
Lemma load_one h b v n : holds h b v -> n < length v -> load h (b_data b) n 1 = Ret [nth n v None].
Proof.
  intros (A & B & C) L. unfold load. cbn [Nat.eqb]. destruct (b_data b) as [p|]; [|lia].
  destruct C as (blk & -> & Lb & V). assert (n + 1 <=? length blk = true) as -> by (apply Nat.leb_le; lia).
  f_equal. rewrite <- V. assert (n < length blk) as LN by lia.
  clear - LN L A V. assert (LS : n < b_size b) by lia. clear A V L.
  revert n LN LS. generalize (b_size b) as k. induction blk as [|x blk IH]; intros k n LN LS; cbn in LN; [lia|].
  destruct k; [lia|]. destruct n; [reflexivity|]. cbn. apply IH; lia.
Qed.
Lemma store_new h n x : length x = n -> store (h ++ [Some (repeat None n)]) (Some (length h)) 0 x =
  Ret (match n with 0 => h ++ [Some []] | _ => h ++ [Some x] end).
Proof.
  intros <-. unfold store. destruct x as [|a x].
  - reflexivity.
  - cbn [length Nat.eqb]. rewrite nth_snoc_new, repeat_length. cbn [plus].
    assert (S (length x) <=? S (length x) = true) as -> by (apply Nat.leb_le; lia). f_equal.
    assert (P : forall (h : heap) u w, put_block (h ++ [u]) (length h) w = h ++ [w]).
    { clear. induction h as [|y h IH]; intros; cbn; auto. now rewrite IH. }
    rewrite P. f_equal. f_equal. f_equal. cbn [firstn app]. rewrite skipn_all2 by (rewrite repeat_length; lia).
    now rewrite app_nil_r.
Qed.
Lemma store_new' h x : store (h ++ [Some (repeat None (length x))]) (Some (length h)) 0 x = Ret (h ++ [Some x]).
Proof. rewrite (store_new h (length x) x eq_refl). destruct x; reflexivity. Qed.

(** A variable with a fresh block. *)
Lemma inv_fresh s e i (v blk : list cell) m : inv s e -> length v <= length blk -> firstn (length v) blk = v ->
  inv (mk_state (st_heap s ++ [Some blk]) (set_var (st_vars s) i (Some (mk_buf (Some (length (st_heap s))) (length v) (length blk) m))))
      (bind_var e i (Some v)).
Proof.
  intros H L V. apply inv_set; auto.
  - split; auto. split; auto. cbn. exists blk. split; [apply nth_snoc_new|auto].
  - intros j bj p b NE B D N. split; [now apply nth_snoc_old|]. cbn. intro Q. injection Q as Q. apply nth_live in N. lia.
Qed.

(** Allocating more room. *)
Lemma reserve_ok s e i b v n : inv s e -> st_vars s i = Some b -> holds (st_heap s) b v -> n <> 0 ->
  exists h' b', reserve (st_heap s) b n = Ret (h', b', false) /\ b_size b' = b_size b /\ b_alloc b' = b_alloc b + n /\
    b_data b' <> None /\ holds h' b' v /\
    (forall j bj p blk, j <> i -> st_vars s j = Some bj -> b_data bj = Some p ->
     nth_error (st_heap s) p = Some (Some blk) -> nth_error h' p = Some (Some blk) /\ b_data b' <> Some p).
Proof.
  intros H B (S & A & D) N. unfold reserve. destruct (b_data b) as [p|] eqn:P.
  - destruct D as (blk & L & LB & V). unfold realloc. rewrite L.
    destruct (Nat.eqb_spec (b_alloc b + n) 0); [lia|]. cbn [bind].
    do 2 eexists. split; [reflexivity|]. cbn [b_size b_alloc b_data]. split; auto. split; auto. split; [discriminate|]. split.
    + split; auto. split; [cbn; lia|]. cbn. eexists. split; [apply nth_snoc_new|]. split.
      * rewrite app_length, firstn_length, repeat_length. lia.
      * rewrite firstn_app, firstn_firstn, firstn_length.
        replace (Nat.min (b_size b) (b_alloc b + n)) with (b_size b) by lia.
        replace (b_size b - Nat.min (b_alloc b + n) (length blk)) with 0 by lia. now rewrite app_nil_r.
    + intros j bj q blk' NE Bj Dj L'. split.
      * apply nth_snoc_old. rewrite put_block_other; auto. intro Q. subst q. apply NE. eapply inv_own; eauto.
      * intro Q. injection Q as Q. apply nth_live in L'. rewrite put_block_length in Q. lia.
  - unfold malloc. do 2 eexists. split; [reflexivity|]. cbn [b_size b_alloc b_data]. split; auto. split; auto. split; [discriminate|]. split.
    + split; auto. split; [cbn; lia|]. cbn. eexists. split; [apply nth_snoc_new|]. split; [apply repeat_length|].
      assert (b_size b = 0) as Z by lia. rewrite Z. destruct v; [reflexivity|]. cbn in S. lia.
    + intros j bj q blk' NE Bj Dj L'. split; [now apply nth_snoc_old|]. intro Q. injection Q as Q. apply nth_live in L'. lia.
Qed.

Lemma free_frame s e i b : inv s e -> st_vars s i = Some b ->
  exists h1, (match b_data b with Some p => free (st_heap s) p | None => Ret (st_heap s) end) = Ret h1 /\
   length h1 = length (st_heap s) /\
   forall j bj p blk, j <> i -> st_vars s j = Some bj -> b_data bj = Some p ->
     nth_error (st_heap s) p = Some (Some blk) -> nth_error h1 p = Some (Some blk).
Proof.
  intros H B. pose proof (inv_vars _ _ H i) as V. rewrite B in V. destruct (e i) as [v|]; [|contradiction].
  destruct V as (_ & _ & D). destruct (b_data b) as [p|] eqn:P.
  - destruct D as (blk & L & _). unfold free. rewrite L. eexists. split; [reflexivity|]. split; [apply put_block_length|].
    intros j bj q blk' NE Bj Dj L'. rewrite put_block_other; auto. intro Q. subst q. apply NE. eapply inv_own; eauto.
  - eexists. split; [reflexivity|]. auto.
Qed.

Lemma set_var_same v i b : set_var v i b i = b.
Proof. unfold set_var. now rewrite Nat.eqb_refl. Qed.
Lemma set_var_other v i j b : j <> i -> set_var v i b j = v j.
Proof. unfold set_var. intro N. destruct (Nat.eqb_spec j i); congruence. Qed.

Lemma step_refines s e o e' r : inv s e -> plain e o e' r -> proper o ->
  exists s', step s o = Ret (s', r) /\ inv s' e'.
Proof.
  intros H P. destruct P as [e i D|e i n D|e i x D|e i j v D Ev|e i j v D Ev|e i j v A Ev|e i j v A Ev NE|e i A|e i A|e i v x Ev|e i v n Ev L|e i v n Ev L|e i n A|e i A|e i n A];
    intro PR; cbn [proper] in PR; cbn [step].
  - unfold dead. rewrite (inv_dead _ _ _ H D). cbn [bind]. eexists. split; [reflexivity|]. apply inv_set; auto.
    + split; auto. split; cbn; auto.
    + intros j bj p blk N B Dj L. split; auto. discriminate.
  - unfold dead. rewrite (inv_dead _ _ _ H D). cbn [bind]. eexists. split; [reflexivity|].
    pose proof (inv_fresh s e i (repeat None n) (repeat None n) (Some 0) H) as Q. rewrite repeat_length in Q.
    apply Q; auto. rewrite firstn_all2 by (rewrite repeat_length; lia). reflexivity.
  - unfold dead. rewrite (inv_dead _ _ _ H D). cbn [bind malloc]. rewrite <- (map_length Some x), store_new'. cbn [bind].
    eexists. split; [reflexivity|]. apply inv_fresh; auto. apply firstn_all.
  - unfold dead. rewrite (inv_dead _ _ _ H D). cbn [bind]. destruct (inv_get _ _ _ _ H Ev) as (c & C & Hc).
    unfold get. rewrite C. cbn [bind malloc].
    assert (Hc' : holds (st_heap s ++ [Some (repeat None (b_size c))]) c v) by (eapply holds_frame; eauto; intros; now apply nth_snoc_old).
    rewrite (load_holds _ _ _ Hc'). cbn [bind]. destruct Hc as (Sz & _). rewrite Sz, store_new'. cbn [bind].
    eexists. split; [reflexivity|]. apply inv_fresh; auto. apply firstn_all.
  - unfold dead. rewrite (inv_dead _ _ _ H D). cbn [bind]. destruct (inv_get _ _ _ _ H Ev) as (c & C & Hc).
    unfold get. rewrite C. cbn [bind]. eexists. split; [reflexivity|].
    assert (IJ : i <> j) by congruence.
    unfold upd. cbn [st_vars].
    pose (s1 := mk_state (st_heap s) (set_var (st_vars s) j (Some (mk_buf None 0 0 (b_mark c))))).
    assert (H1 : inv s1 (bind_var e j (Some []))).
    { apply inv_set; auto; [repeat split; auto|]. intros k bk p blk N B Dk L. split; auto. discriminate. }
    apply (inv_set s1 (bind_var e j (Some []))); auto.
    intros k bk p blk N B Dk L. split; auto. cbn [b_data s1 st_vars st_heap] in *. intro Q.
    destruct (Nat.eq_dec k j) as [->|NK].
    + rewrite set_var_same in B. injection B as <-. discriminate.
    + rewrite set_var_other in B by auto. apply NK. exact (inv_own _ _ H k j bk c p B C Dk Q).
  - destruct (inv_alive _ _ _ H A) as (b & vb & B & Eb & Hb). destruct (inv_get _ _ _ _ H Ev) as (c & C & Hc).
    unfold get. rewrite B. cbn [bind]. destruct (free_frame s e i b H B) as (h1 & F1 & F2 & F3). rewrite F1. cbn [bind].
    rewrite C. cbn [bind malloc upd st_vars]. rewrite set_var_other by auto. rewrite C. cbn [bind].
    assert (Hc' : holds (h1 ++ [Some (repeat None (b_size c))]) c v).
    { eapply holds_frame; eauto. intros p blk Dp L. apply nth_snoc_old. eapply (F3 j); eauto. }
    rewrite (load_holds _ _ _ Hc'). cbn [bind]. destruct Hc as (Sz & _). rewrite Sz, store_new'. cbn [bind].
    eexists. split; [reflexivity|]. apply inv_set; auto.
    + split; auto. split; auto. cbn. exists v. split; [apply nth_snoc_new|]. split; auto. apply firstn_all.
    + intros k bk p blk N Bk Dk L. split; [apply nth_snoc_old; eauto|]. cbn. intro Q. injection Q as Q.
      apply nth_live in L. lia.
  - destruct (inv_alive _ _ _ H A) as (b & vb & B & Eb & Hb). destruct (inv_get _ _ _ _ H Ev) as (c & C & Hc).
    unfold get. rewrite B, C. cbn [bind]. eexists. split; [reflexivity|]. unfold upd. cbn [st_vars].
    pose (e1 := bind_var (bind_var e j (Some [])) i (Some v)).
    pose (s1 := mk_state (st_heap s) (set_var (st_vars s) j (Some (mk_buf None 0 0 (Some 0))))).
    assert (H1 : inv s1 (bind_var e j (Some []))).
    { apply inv_set; auto; [repeat split; auto|]. intros k bk p blk N Bk Dk L. split; auto. discriminate. }
    assert (H2 : inv (mk_state (st_heap s) (set_var (st_vars s1) i (Some c))) e1).
    { apply (inv_set s1 (bind_var e j (Some []))); auto.
      intros k bk p blk N Bk Dk L. split; auto. cbn [s1 st_vars st_heap] in *. intro Q.
      destruct (Nat.eq_dec k j) as [->|NK].
      + rewrite set_var_same in Bk. injection Bk as <-. discriminate.
      + rewrite set_var_other in Bk by auto. apply NK. exact (inv_own _ _ H k j bk c p Bk C Dk Q). }
    destruct H2 as [V O]. split.
    + intro k. specialize (V k). cbn [st_vars st_heap s1] in *. unfold e1, bind_var, set_var in *.
      destruct (Nat.eqb_spec k i), (Nat.eqb_spec k j); try subst; try congruence; auto.
    + intros k l bk bl p Bk Bl. apply (O k l bk bl p); cbn [st_vars s1] in *; unfold set_var in *;
      destruct (Nat.eqb_spec k i), (Nat.eqb_spec k j), (Nat.eqb_spec l i), (Nat.eqb_spec l j); try subst; try congruence; auto.
  - congruence.
  - destruct (inv_alive _ _ _ H A) as (b & vb & B & Eb & Hb). unfold get. rewrite B. cbn [bind].
    destruct (free_frame s e i b H B) as (h1 & F1 & _ & F3). rewrite F1. cbn [bind]. eexists. split; [reflexivity|].
    apply inv_drop; auto.
  - destruct (inv_get _ _ _ _ H Ev) as (b & B & Hb). unfold get. rewrite B. cbn [bind].
    assert (G : exists h1 b1, (if b_alloc b <? b_size b + length x then reserve (st_heap s) b ((b_size b + length x) - b_alloc b)
                               else Ret (st_heap s, b, false)) = Ret (h1, b1, false) /\ holds h1 b1 v /\
        b_size b1 + length x <= b_alloc b1 /\
        (forall j bj p blk, j <> i -> st_vars s j = Some bj -> b_data bj = Some p ->
          nth_error (st_heap s) p = Some (Some blk) -> nth_error h1 p = Some (Some blk) /\ b_data b1 <> Some p)).
    { destruct (Nat.ltb_spec (b_alloc b) (b_size b + length x)) as [L|L].
      - destruct (reserve_ok s e i b v (b_size b + length x - b_alloc b) H B Hb ltac:(lia)) as (h1 & b1 & R & S1 & A1 & D1 & H1 & F).
        exists h1, b1. split; auto. split; auto. split; [lia|auto].
      - exists (st_heap s), b. split; auto. split; auto. split; auto. intros j bj p blk N Bj Dj Lj. split; auto.
        intro Q. apply N. eapply inv_own; eauto. }
    destruct G as (h1 & b1 & -> & H1 & L1 & F). cbn [bind].
    destruct H1 as (S1 & A1 & D1).
    destruct x as [|a x].
    + unfold store. cbn [map length Nat.eqb bind]. eexists. split; [reflexivity|]. rewrite app_nil_r, Nat.add_0_r.
      apply inv_set; auto. split; auto.
    + unfold store. rewrite map_length. cbn [length Nat.eqb]. cbn [length] in L1.
      destruct (b_data b1) as [p|] eqn:P1; [|lia]. destruct D1 as (blk & Lk & LB & V). rewrite Lk.
      assert (b_size b1 + S (length x) <=? length blk = true) as -> by (apply Nat.leb_le; lia). cbn [bind].
      eexists. split; [reflexivity|]. apply inv_set; auto.
      * split; [rewrite app_length, map_length; cbn [length b_size]; lia|]. split; [cbn; lia|].
        cbn [b_data b_size b_alloc]. eexists. split; [apply put_block_same; eapply nth_live; eauto|]. split.
        -- rewrite !app_length, map_length, firstn_length, skipn_length. cbn [length]. lia.
        -- rewrite V. rewrite app_assoc, firstn_app.
           replace (b_size b1 + S (length x)) with (length (v ++ map Some (a :: x))) at 1 by (rewrite app_length, map_length; cbn [length]; lia).
           rewrite firstn_all. rewrite app_length, map_length. cbn [length].
           replace (b_size b1 + S (length x) - (length v + S (length x))) with 0 by lia. cbn [firstn]. now rewrite app_nil_r.
      * cbn [b_data]. intros j bj q blk' N Bj Dj Lj. destruct (F j bj q blk' N Bj Dj Lj) as [F1 F2]. split; auto.
        rewrite put_block_other; auto; congruence.
  - destruct (inv_get _ _ _ _ H Ev) as (b & B & Hb). unfold get. rewrite B. cbn [bind].
    destruct Hb as (Sz & Al & D). assert (b_size b <? n = false) as -> by (apply Nat.ltb_ge; lia).
    eexists. split; [reflexivity|]. apply inv_set; auto.
    + split; [cbn; rewrite firstn_length; lia|]. split; [cbn; lia|]. cbn. destruct (b_data b) as [p|]; auto.
      destruct D as (blk & L1 & L2 & <-). exists blk. split; auto. split; auto. rewrite firstn_firstn. f_equal. lia.
    + intros j bj p blk N Bj Dj Lj. split; auto. cbn. intro Q. apply N. eapply inv_own; eauto.
  - destruct (inv_get _ _ _ _ H Ev) as (b & B & Hb). unfold get. rewrite B. cbn [bind].
    destruct Hb as (Sz & _). assert (b_size b <? n = true) as -> by (apply Nat.ltb_lt; lia). eauto.
  - destruct (inv_alive _ _ _ H A) as (b & vb & B & Eb & Hb). unfold get. rewrite B. cbn [bind].
    destruct (reserve_ok s e i b vb n H B Hb PR) as (h1 & b1 & R & S1 & A1 & D1 & H1 & F). rewrite R. cbn [bind].
    eexists. split; [reflexivity|]. apply inv_ext with (e := bind_var e i (Some vb)).
    + apply inv_set; auto.
    + intro k. unfold bind_var. destruct (Nat.eqb_spec k i); congruence.
  - destruct (inv_alive _ _ _ H A) as (b & vb & B & Eb & Hb). unfold get. rewrite B. cbn [bind].
    eexists. split; [reflexivity|]. apply inv_set; auto.
    + destruct Hb as (Sz & Al & D). split; auto. split; [cbn; lia|]. cbn. destruct (b_data b) as [p|]; auto.
      destruct D as (blk & L1 & L2 & _). exists blk. auto.
    + intros j bj p blk N Bj Dj Lj. split; auto. cbn. intro Q. apply N. eapply inv_own; eauto.
  - destruct (inv_alive _ _ _ H A) as (b & vb & B & Eb & Hb). unfold get. rewrite B. cbn [bind].
    eexists. split; [reflexivity|]. apply inv_ext with (e := bind_var e i (Some vb)).
    + apply inv_set; auto. intros j bj p blk N Bj Dj Lj. split; auto. cbn. intro Q. apply N. eapply inv_own; eauto.
    + intro k. unfold bind_var. destruct (Nat.eqb_spec k i); congruence.
Qed.

Lemma run_refines ops : forall s e e' l, inv s e -> plain_run e ops e' l -> Forall proper ops ->
  exists s', run s ops = Ret (s', l) /\ inv s' e'.
Proof.
  induction ops as [|o ops IH]; intros s e e' l H P F; inversion P; subst.
  - cbn. eauto.
  - inversion F; subst. destruct (step_refines s e o e1 r H H3 H2) as (s1 & E1 & I1).
    destruct (IH s1 e1 e' l0 I1 H6 H4) as (s2 & E2 & I2). exists s2. cbn. rewrite E1. cbn. rewrite E2. auto.
Qed.
Lemma inv_start : inv start empty_env.
Proof. split; cbn; auto. discriminate. Qed.


(** Observations. *)
Lemma obs_contents s e i v : inv s e -> e i = Some v -> contents s i = Ret v.
Proof.
  intros H E. destruct (inv_get _ _ _ _ H E) as (b & B & Hb). unfold contents, get. rewrite B. cbn [bind].
  now apply load_holds.
Qed.
Lemma obs_size s e i v : inv s e -> e i = Some v -> size s i = Ret (length v).
Proof.
  intros H E. destruct (inv_get _ _ _ _ H E) as (b & B & Hb). unfold size, get. rewrite B. cbn [bind].
  destruct Hb as (-> & _). reflexivity.
Qed.
Lemma obs_char_at s e i v n : inv s e -> e i = Some v ->
  char_at s i n = match nth_error v n with Some c => Ret c | None => Throw end.
Proof.
  intros H E. destruct (inv_get _ _ _ _ H E) as (b & B & Hb). unfold char_at, get. rewrite B. cbn [bind].
  pose proof Hb as (Sz & _). destruct (Nat.leb_spec (b_size b) n) as [L|L].
  - assert (nth_error v n = None) as -> by (apply nth_error_None; lia). reflexivity.
  - rewrite (load_one _ _ v) by (auto; lia). cbn [bind hd].
    rewrite (nth_error_nth' v None) by lia. reflexivity.
Qed.
Lemma find_loop_spec s b v c : holds (st_heap s) b (map Some v) -> forall k n, n + k = length v ->
  match find_loop s b c n k with
  | Ret (Some m) => nth_error v m = Some c /\ n <= m /\ forall q, n <= q < m -> nth_error v q <> Some c
  | Ret None => forall q, n <= q -> nth_error v q <> Some c
  | _ => False
  end.
Proof.
  intro H. induction k as [|k IH]; intros n L; cbn [find_loop].
  - intros q Q. assert (nth_error v q = None) as -> by (apply nth_error_None; lia). discriminate.
  - rewrite (load_one _ _ (map Some v)) by (auto; rewrite map_length; lia). cbn [bind hd].
    destruct (nth_error v n) as [a|] eqn:A; [|apply nth_error_None in A; lia].
    rewrite (nth_indep _ None (Some a)) by (rewrite map_length; lia).
    rewrite map_nth, (nth_error_nth _ _ _ A). destruct (Ascii.eqb_spec a c) as [->|NE].
    + split; auto. split; auto. intros; lia.
    + specialize (IH (S n) ltac:(lia)). destruct (find_loop s b c (S n) k) as [[m|]| | | | ]; auto.
      * destruct IH as (I1 & I2 & I3). split; auto. split; [lia|]. intros q Q. destruct (Nat.eq_dec q n); [congruence|]. apply I3. lia.
      * intros q Q. destruct (Nat.eq_dec q n); [congruence|]. apply IH. lia.
Qed.
Lemma obs_find s e i v c : inv s e -> e i = Some (map Some v) ->
  exists r, find s i c = Ret r /\
  match r with
  | Some m => nth_error v m = Some c /\ forall q, q < m -> nth_error v q <> Some c
  | None => ~ In c v
  end.
Proof.
  intros H E. destruct (inv_get _ _ _ _ H E) as (b & B & Hb). unfold find, get. rewrite B. cbn [bind].
  pose proof Hb as (Sz & _). rewrite map_length in Sz. pose proof (find_loop_spec s b v c Hb (b_size b) 0 ltac:(lia)) as F.
  destruct (find_loop s b c 0 (b_size b)) as [[m|]| | | | ]; try contradiction.
  - eexists. split; [reflexivity|]. destruct F as (F1 & _ & F3). split; auto. intros q Q. apply F3. lia.
  - eexists. split; [reflexivity|]. intro I. apply In_nth_error in I as (q & Q). exact (F q ltac:(lia) Q).
Qed.
