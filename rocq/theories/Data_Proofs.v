From Verif Require Import Base Sexpr_Model Dispatch_Model Csv_Model Csv_Proofs Data_Model Data_Spec.

Lemma Forall2_impl {A B} (R S : A -> B -> Prop) l l' :
  (forall a b, R a b -> S a b) -> Forall2 R l l' -> Forall2 S l l'.
Proof. intros H F. induction F; constructor; auto. Qed.

Lemma Forall2_length {A B} (R : A -> B -> Prop) l l' : Forall2 R l l' -> length l = length l'.
Proof. intro F. induction F; cbn; auto. Qed.

Section D.
  Variable num : Type.
  Variable show : num -> str.
  Variable parse_f64 : str -> num.
  Notation databuf := (databuf num).

  Definition do_add (b : databuf) (a : addition num) : databuf :=
    match a with AddNum v => databuf_add_num num b v | AddText s => databuf_add_text num b s end.
  Definition as_text (a : addition num) : str :=
    match a with AddNum v => show v | AddText s => s end.
  Definition as_num (a : addition num) : num :=
    match a with AddNum v => v | AddText s => parse_f64 s end.

  (** representation *)
  Definition entry (b : databuf) (i : dtype * nat) (a : addition num) : Prop :=
    match i, a with
    | (Number, p), AddNum v => nth_error (numeric num b) p = Some v
    | (Text, p), AddText s => nth_error (text num b) p = Some s
    | _, _ => False
    end.
  Definition repr (b : databuf) (l : list (addition num)) : Prop := Forall2 (entry b) (index num b) l.

  Lemma nth_error_app_l {A} (l t : list A) i x : nth_error l i = Some x -> nth_error (l ++ t) i = Some x.
  Proof. intro H. rewrite nth_error_app1; auto. apply nth_error_Some; congruence. Qed.

  Lemma nth_error_end {A} (l : list A) x : nth_error (l ++ [x]) (length l) = Some x.
  Proof. rewrite nth_error_app2, Nat.sub_diag by lia. reflexivity. Qed.

  Lemma repr_add b l a : repr b l -> repr (do_add b a) (l ++ [a]).
  Proof.
    unfold repr. intro H. destruct a as [v|s]; cbn.
    - apply Forall2_app.
      + eapply Forall2_impl; [|exact H]. intros [[] p] [x|x]; cbn; auto using nth_error_app_l.
      + repeat constructor. cbn. apply nth_error_end.
    - apply Forall2_app.
      + eapply Forall2_impl; [|exact H]. intros [[] p] [x|x]; cbn; auto using nth_error_app_l.
      + repeat constructor. cbn. apply nth_error_end.
  Qed.

  Lemma repr_adds l : forall b l0, repr b l0 -> repr (fold_left do_add l b) (l0 ++ l).
  Proof.
    induction l as [|a l IH]; intros b l0 H; cbn [fold_left].
    - now rewrite app_nil_r.
    - replace (l0 ++ a :: l) with ((l0 ++ [a]) ++ l) by (now rewrite <- app_assoc).
      apply IH. now apply repr_add.
  Qed.

  Lemma repr_text b ix l vals : Forall2 (entry b) ix l ->
    to_text_loop num show b ix vals = Ret (vals ++ map as_text l).
  Proof.
    intro H. revert vals. induction H as [|[ty p] a ix l E H IH]; intro vals; cbn [to_text_loop map].
    - now rewrite app_nil_r.
    - destruct ty, a; cbn in E; try contradiction; rewrite E, IH, <- app_assoc; reflexivity.
  Qed.

  Lemma repr_numbers b ix l vals : Forall2 (entry b) ix l ->
    to_numbers_loop num parse_f64 b ix vals = Ret (vals ++ map as_num l).
  Proof.
    intro H. revert vals. induction H as [|[ty p] a ix l E H IH]; intro vals; cbn [to_numbers_loop map].
    - now rewrite app_nil_r.
    - destruct ty, a; cbn in E; try contradiction; rewrite E, IH, <- app_assoc; reflexivity.
  Qed.

  Lemma databuf_history (l : list (addition num)) (vals : list str) (nums : list num) :
    let b := fold_left do_add l (empty_buf num) in
    databuf_len num b = length l /\
    databuf_to_text num show b vals = Ret (vals ++ map as_text l) /\
    databuf_to_numbers num parse_f64 b nums = Ret (nums ++ map as_num l).
  Proof.
    intro b. assert (repr b l) as R by (apply (repr_adds l (empty_buf num) []); constructor).
    repeat split.
    - unfold databuf_len. now apply Forall2_length in R.
    - now apply repr_text.
    - now apply repr_numbers.
  Qed.

  Lemma fold_text l : forall b, fold_left (databuf_add_text num) l b = fold_left do_add (map AddText l) b.
  Proof. induction l as [|x l IH]; intro b; cbn; auto. Qed.

  Lemma inline_text e l vals : 
    let b := load_inline num e (fold_left do_add l (empty_buf num)) in
    databuf_to_text num show b vals = Ret (vals ++ map as_text l ++ map raw_value e).
  Proof.
    intro b.
    assert (b = fold_left do_add (l ++ map (fun x => AddText (raw_value x)) e) (empty_buf num)) as ->.
    { unfold b, load_inline. rewrite fold_left_app. generalize (fold_left do_add l (empty_buf num)).
      induction e as [|x e IH]; intro b0; cbn; auto. }
    match goal with |- context [fold_left do_add ?m _] =>
      assert (repr (fold_left do_add m (empty_buf num)) m) as R by (apply (repr_adds m (empty_buf num) []); constructor) end.
    unfold databuf_to_text. erewrite repr_text by exact R. rewrite map_app, map_map. reflexivity.
  Qed.
End D.

(* ---- grouping ---- *)
Lemma rows_of_app k n a b : rows_of k n (a ++ b) = rows_of k n a ++ rows_of k (n + length a) b.
Proof.
  revert n; induction a as [|x a IH]; intro n; cbn [app rows_of length].
  - now rewrite Nat.add_0_r.
  - rewrite IH. replace (S n + length a) with (n + S (length a)) by lia.
    destruct (list_eq_dec ascii_dec x k); reflexivity.
Qed.

Lemma in_firsts k : forall data seen, In k (firsts seen data) <-> In k data /\ ~ In k seen.
Proof.
  induction data as [|x data IH]; intro seen; cbn.
  - tauto.
  - destruct (in_dec (list_eq_dec ascii_dec) x seen) as [i|n].
    + rewrite IH. split; [tauto|]. intros [[->|H] Hn]; tauto.
    + cbn [In]. rewrite IH. cbn [In]. destruct (list_eq_dec ascii_dec x k) as [->|d]; [tauto|].
      split; [tauto|]. intros [[H|H] Hn]; [congruence|]. right. tauto.
Qed.

Lemma firsts_snoc k data : firsts [] (data ++ [k]) =
  if in_dec (list_eq_dec ascii_dec) k data then firsts [] data else firsts [] data ++ [k].
Proof.
  assert (forall seen, firsts seen (data ++ [k]) =
    if in_dec (list_eq_dec ascii_dec) k (data ++ seen) then firsts seen data else firsts seen data ++ [k]) as X.
  { induction data as [|x data IH]; intro seen; cbn [app firsts].
    - cbn. destruct (in_dec (list_eq_dec ascii_dec) k seen); auto.
    - destruct (in_dec (list_eq_dec ascii_dec) x seen) as [i|n].
      + rewrite IH. destruct (in_dec (list_eq_dec ascii_dec) k (data ++ seen)) as [j|j], (in_dec (list_eq_dec ascii_dec) k (x :: data ++ seen)) as [j'|j']; auto.
        * exfalso; apply j'; right; auto.
        * exfalso. destruct j' as [->|j']; apply j; auto. apply in_or_app; auto.
      + rewrite IH. destruct (in_dec (list_eq_dec ascii_dec) k (data ++ x :: seen)) as [j|j], (in_dec (list_eq_dec ascii_dec) k (x :: data ++ seen)) as [j'|j']; auto.
        * exfalso; apply j'. apply in_app_or in j as [j|[->|j]]; cbn; auto; right; apply in_or_app; auto.
        * exfalso; apply j. destruct j' as [->|j']; apply in_or_app; cbn; auto.
          apply in_app_or in j' as [j'|j']; auto. }
  rewrite (X []). rewrite app_nil_r. reflexivity.
Qed.

Lemma firsts_nodup data : forall seen, NoDup (firsts seen data).
Proof.
  induction data as [|x data IH]; intro seen; cbn; [constructor|].
  destruct (in_dec (list_eq_dec ascii_dec) x seen); auto. constructor; auto. rewrite in_firsts. cbn. tauto.
Qed.

(** map invariant *)
Definition map_ok (m : list (str * nat)) (keys : list str) : Prop :=
  (forall k, In k keys -> exists i, lookup0 k m = S i /\ nth_error keys i = Some k) /\
  (forall k, ~ In k keys -> lookup0 k m = 0).

Lemma push_index_ok groups i idx k ix : nth_error groups i = Some (k, ix) ->
  push_index groups i idx = Ret (firstn i groups ++ (k, ix ++ [idx]) :: skipn (S i) groups).
Proof.
  revert i; induction groups as [|[k0 ix0] groups IH]; intros i H; [destruct i; discriminate|].
  destruct i as [|i]; cbn in *.
  - inversion H; subst; reflexivity.
  - rewrite IH by auto. reflexivity.
Qed.

Lemma rows_of_none k n data : ~ In k data -> rows_of k n data = [].
Proof.
  revert n; induction data as [|x data IH]; intros n H; cbn; auto.
  destruct (list_eq_dec ascii_dec x k) as [->|d]; [exfalso; apply H; left; auto|].
  apply IH. intro; apply H; right; auto.
Qed.

Lemma grouped_snoc pre k :
  grouped (pre ++ [k]) =
    if in_dec (list_eq_dec ascii_dec) k pre
    then map (fun k' => (k', rows_of k' 0 pre ++ if list_eq_dec ascii_dec k k' then [length pre] else [])) (firsts [] pre)
    else grouped pre ++ [(k, [length pre])].
Proof.
  unfold grouped. rewrite firsts_snoc.
  assert (forall k', rows_of k' 0 (pre ++ [k]) = rows_of k' 0 pre ++ if list_eq_dec ascii_dec k k' then [length pre] else []) as R.
  { intro k'. rewrite rows_of_app. cbn. destruct (list_eq_dec ascii_dec k k'); reflexivity. }
  destruct (in_dec (list_eq_dec ascii_dec) k pre) as [i|n].
  - apply map_ext. intro k'. now rewrite R.
  - rewrite map_app. cbn [map]. f_equal.
    + apply map_ext_in. intros k' Hk'. apply in_firsts in Hk' as [Hk' _]. rewrite R.
      destruct (list_eq_dec ascii_dec k k') as [->|d]; [contradiction|]. now rewrite app_nil_r.
    + rewrite R, rows_of_none by auto. destruct (list_eq_dec ascii_dec k k); [reflexivity|congruence].
Qed.

Lemma nth_error_map' {A B} (f : A -> B) l i x : nth_error l i = Some x -> nth_error (map f l) i = Some (f x).
Proof. revert i; induction l; intros [|i]; cbn; intro H; inversion H; auto. Qed.

Lemma group_loop_ok rest : forall pre m, map_ok m (firsts [] pre) ->
  group_loop rest (length pre) (grouped pre) m = Ret (grouped (pre ++ rest)).
Proof.
  induction rest as [|k rest IH]; intros pre m Hm.
  { cbn. now rewrite app_nil_r. }
  cbn [group_loop].
  assert (length (grouped pre) = length (firsts [] pre)) as Lg by (unfold grouped; apply map_length).
  replace (pre ++ k :: rest) with ((pre ++ [k]) ++ rest) by (now rewrite <- app_assoc).
  assert (S (length pre) = length (pre ++ [k])) as Lp by (rewrite app_length; cbn; lia).
  destruct Hm as [Hm1 Hm2].
  destruct (in_dec (list_eq_dec ascii_dec) k pre) as [Hin|Hnin].
  - destruct (Hm1 k) as (i & Hi & Hn). { apply in_firsts; cbn; tauto. }
    rewrite Hi. cbn [Nat.eqb]. replace (S i - 1) with i by lia.
    assert (nth_error (grouped pre) i = Some (k, rows_of k 0 pre)) as Hg.
    { unfold grouped. now apply (nth_error_map' (fun k => (k, rows_of k 0 pre))). }
    rewrite (push_index_ok _ _ _ _ _ Hg). cbn [bind].
    assert (firstn i (grouped pre) ++ (k, rows_of k 0 pre ++ [length pre]) :: skipn (S i) (grouped pre)
            = grouped (pre ++ [k])) as ->.
    { rewrite grouped_snoc. destruct (in_dec (list_eq_dec ascii_dec) k pre) as [_|?]; [|contradiction].
      unfold grouped. clear -Hn. pose proof (firsts_nodup pre []) as N.
      revert i Hn N. generalize (firsts [] pre). intro l.
      induction l as [|x l IHl]; intros i Hn N; [destruct i; discriminate|].
      inversion N; subst. destruct i as [|i]; cbn in Hn.
      - inversion Hn; subst. cbn. destruct (list_eq_dec ascii_dec k k); [|congruence].
        f_equal. apply map_ext_in. intros a Ha. destruct (list_eq_dec ascii_dec k a) as [->|d]; [contradiction|].
        now rewrite app_nil_r.
      - cbn [map firstn skipn app]. rewrite IHl by auto.
        destruct (list_eq_dec ascii_dec k x) as [->|d].
        + exfalso. apply H1. eapply nth_error_In; eauto.
        + now rewrite app_nil_r. }
    rewrite Lp. apply IH.
    rewrite firsts_snoc. destruct (in_dec (list_eq_dec ascii_dec) k pre) as [_|?]; [|contradiction]. split; auto.
  - rewrite Hm2 by (rewrite in_firsts; tauto). cbn [Nat.eqb].
    replace (S (length (grouped pre)) - 1) with (length (grouped pre)) by lia.
    assert (nth_error (grouped pre ++ [(k, [])]) (length (grouped pre)) = Some (k, [])) as Hg.
    { rewrite nth_error_app2, Nat.sub_diag by lia. reflexivity. }
    rewrite (push_index_ok _ _ _ _ _ Hg). cbn [bind app].
    assert (firstn (length (grouped pre)) (grouped pre ++ [(k, [])]) ++
            (k, [length pre]) :: skipn (S (length (grouped pre))) (grouped pre ++ [(k, [])])
            = grouped (pre ++ [k])) as ->.
    { rewrite grouped_snoc. destruct (in_dec (list_eq_dec ascii_dec) k pre) as [?|_]; [contradiction|].
      rewrite firstn_app, firstn_all, Nat.sub_diag. cbn [firstn]. rewrite app_nil_r.
      rewrite skipn_all2 by (rewrite app_length; cbn; lia). reflexivity. }
    rewrite Lp. apply IH.
    rewrite firsts_snoc. destruct (in_dec (list_eq_dec ascii_dec) k pre) as [?|_]; [contradiction|]. rewrite Lg. split.
    + intros k' Hk'. cbn. destruct (str_eqb_spec k' k) as [->|d].
      * exists (length (firsts [] pre)). split; auto. apply nth_error_end.
      * apply in_app_or in Hk' as [Hk'|[Hk'|[]]]; [|congruence].
        destruct (Hm1 k' Hk') as (i & Hi & Hn). exists i. split; auto. now apply nth_error_app_l.
    + intros k' Hk'. cbn. destruct (str_eqb_spec k' k) as [->|d].
      * exfalso; apply Hk'. apply in_or_app; cbn; auto.
      * apply Hm2. intro; apply Hk'. apply in_or_app; auto.
Qed.

Lemma series_group_ok data : series_group data = Ret (grouped data).
Proof.
  unfold series_group. change 0 with (length (@nil str)). change (@nil (str * list nat)) with (grouped []).
  rewrite (group_loop_ok data [] []); auto. split; cbn; [tauto|auto].
Qed.

Lemma in_rows_of k n data i : In i (rows_of k n data) <-> exists j, i = n + j /\ nth_error data j = Some k.
Proof.
  revert n; induction data as [|x data IH]; intro n; cbn [rows_of].
  - split; [intros []|]. intros (j & _ & H); destruct j; discriminate.
  - destruct (list_eq_dec ascii_dec x k) as [->|d]; cbn [In]; rewrite IH; split.
    + intros [<-|(j & -> & H)]; [exists 0|exists (S j)]; split; auto; lia.
    + intros ([|j] & -> & H); [left; lia|right; exists j; split; auto; lia].
    + intros (j & -> & H); exists (S j); split; auto; lia.
    + intros ([|j] & -> & H); cbn in H; [congruence|exists j; split; auto; lia].
Qed.

Lemma group_partition data groups : series_group data = Ret groups ->
  NoDup (map fst groups) /\
  (forall k ix, In (k, ix) groups -> ix <> [] /\ forall i, In i ix <-> nth_error data i = Some k) /\
  (forall i k, nth_error data i = Some k -> exists ix, In (k, ix) groups /\ In i ix).
Proof.
  rewrite series_group_ok. intro H; inversion H; subst; clear H. unfold grouped. repeat split.
  - rewrite map_map. cbn. rewrite map_id. apply firsts_nodup.
  - apply in_map_iff in H as (k' & E & H). inversion E; subst. apply in_firsts in H as [H _].
    apply In_nth_error in H as [j Hj]. intro X.
    assert (In j (rows_of k 0 data)) by (apply in_rows_of; exists j; auto). rewrite X in *; contradiction.
  - apply in_map_iff in H as (k' & E & H). inversion E; subst. rewrite in_rows_of. intros (j & -> & Hj); auto.
  - apply in_map_iff in H as (k' & E & H). inversion E; subst. rewrite in_rows_of. intro; exists i; auto.
  - intros i k H. exists (rows_of k 0 data). split.
    + apply in_map_iff. exists k; split; auto. apply in_firsts. split; [eapply nth_error_In; eauto|tauto].
    + apply in_rows_of. exists i; auto.
Qed.

(* ---- loaders ---- *)
Lemma load_csv_ok read path column p c txt headers rows idx :
  value_of [p] = Some path -> value_of [c] = Some column ->
  read path = Some txt -> csv_parse (length txt) txt = Ret (headers :: rows) ->
  index_of column headers = Some idx -> Forall (fun r => idx < length r) rows ->
  exists vs, load_csv read [p; c] = (vs, Ret tt) /\
    Forall2 (fun row v => nth_error row idx = Some v) rows vs.
Proof.
  intros Hp Hc Hr Ht Hi Hf. unfold load_csv.
  assert (value_of [p; c] = Some path) as -> by (destruct p; cbn in *; auto).
  rewrite Hc, Hr, Ht. now apply column_ok.
Qed.

Lemma points2_csv num read geo path format bx by_ x y :
  path <> [] -> detect_format path format = s_ "csv" ->
  snd (data_load_points2 num read geo path format x y bx by_) <> Ret tt.
Proof.
  intros Hp Hf. unfold data_load_points2. rewrite Hf.
  change (str_eqb (s_ "csv") (s_ "geojson")) with false. cbn iota.
  match goal with |- context [let '(a, b) := ?e in _] => destruct e as [bx1 o1] end.
  destruct o1; cbn; try discriminate.
  match goal with |- context [let '(a, b) := ?e in _] => destruct e as [by1 o2] end.
  destruct o2; cbn; try discriminate.
  destruct path; [congruence|]. cbn; discriminate.
Qed.

(* ---- at_or, fallback ---- *)
Lemma at_or_spec {T} (vec : list T) idx fb :
  (forall v, nth_error vec idx = Some v -> at_or vec idx fb = Ret v) /\
  (nth_error vec idx = None -> at_or vec idx fb = Ret fb).
Proof.
  unfold at_or. split.
  - intros v H. assert (idx < length vec) by (apply nth_error_Some; congruence).
    rewrite (proj2 (Nat.ltb_lt _ _)) by auto. now rewrite H.
  - intro H. apply nth_error_None in H. now rewrite (proj2 (Nat.ltb_ge _ _)).
Qed.

Lemma ends_with_spec s suf : ends_with s suf = true <-> exists p, s = p ++ suf.
Proof.
  unfold ends_with. destruct (Nat.ltb_spec (length s) (length suf)) as [H|H].
  - split; [discriminate|]. intros [p ->]. rewrite app_length in H. lia.
  - destruct (str_eqb_spec (skipn (length s - length suf) s) suf) as [E|E]; split; try discriminate; auto.
    + intros _. exists (firstn (length s - length suf) s). rewrite <- E at 2. now rewrite firstn_skipn.
    + intros [p ->]. exfalso; apply E. rewrite app_length.
      replace (length p + length suf - length suf) with (length p) by lia.
      rewrite skipn_app, skipn_all, Nat.sub_diag. reflexivity.
Qed.

Lemma detect_spec path format :
  (format <> [] -> detect_format path format = format) /\
  (format = [] -> (exists p, path = p ++ s_ ".geojson") -> detect_format path format = s_ "geojson") /\
  (format = [] -> (exists p, path = p ++ s_ ".csv") -> detect_format path format = s_ "csv") /\
  (format = [] -> ~ (exists p, path = p ++ s_ ".geojson") -> ~ (exists p, path = p ++ s_ ".csv") ->
     detect_format path format = []).
Proof.
  unfold detect_format. repeat split.
  - destruct format; congruence.
  - intros -> H. now rewrite (proj2 (ends_with_spec _ _) H).
  - intros -> H. destruct (ends_with path (s_ ".geojson")) eqn:G.
    + exfalso. apply ends_with_spec in G as [p Hp]. destruct H as [q Hq].
      rewrite Hp in Hq. apply (f_equal (@rev ascii)) in Hq. rewrite !rev_app_distr in Hq. cbn in Hq. discriminate.
    + now rewrite (proj2 (ends_with_spec _ _) H).
  - intros -> H1 H2. destruct (ends_with path (s_ ".geojson")) eqn:G.
    + exfalso. apply H1. now apply ends_with_spec.
    + destruct (ends_with path (s_ ".csv")) eqn:C; auto. exfalso. apply H2. now apply ends_with_spec.
Qed.

Definition contents {H} (x : list H + option H) : list H :=
  match x with inl v => v | inr (Some a) => [a] | inr None => [] end.

Lemma fallback_spec {H} (l : list (list H + option H)) :
  (forall pre x post, l = pre ++ x :: post -> Forall (fun y => contents y = []) pre -> contents x <> [] ->
     fallback l = contents x) /\
  (Forall (fun y => contents y = []) l -> fallback l = []).
Proof.
  split.
  - intros pre x post -> Hp Hx. induction Hp as [|y pre Hy Hp IH]; cbn [app].
    + destruct x as [v|[a|]]; cbn in *; try congruence; destruct post; auto; destruct v; congruence.
    + assert (exists z l, pre ++ x :: post = z :: l) as (z & l & E) by (destruct pre; cbn; eauto).
      rewrite E in *. destruct y as [v|[a|]]; cbn in Hy; try discriminate; subst; exact IH.
  - induction 1 as [|y l Hy H0 IH]; auto.
    destruct y as [v|[a|]]; cbn in Hy; try discriminate; subst; destruct l; auto.
Qed.
