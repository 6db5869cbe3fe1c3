From Coq Require Import Reals Lra.
From Verif Require Import Base Num Sexpr_Model Dispatch_Model Dispatch_Spec Data_Model Data_Spec Data_Proofs Scale_Model Scale_Spec Scale_Proofs
  Units_Model Color_Model Geo_Model Svg_Model Geojson_Model Cmd_Model Cmd_Spec Cmd_Proofs Style_Model Plot_Model Plot_Spec.
Local Open Scope R_scope.

(* ---------------- lists ---------------- *)
Lemma numbered_seq {A} (P : nat -> nat * A -> Prop) : forall (l : list A) k,
  (forall i a, nth_error l i = Some a -> P (k + i)%nat ((k + i)%nat, a)) ->
  Forall2 P (seq k (length l)) (combine (seq k (length l)) l).
Proof.
  induction l as [|a l IH]; intros k H; cbn [length seq combine]; constructor.
  - specialize (H 0%nat a eq_refl). now rewrite Nat.add_0_r in H.
  - apply IH. intros i b I. specialize (H (Datatypes.S i) b I).
    now replace (Datatypes.S k + i)%nat with (k + Datatypes.S i)%nat by lia.
Qed.
Lemma numbered_Forall2 {A} (P : nat -> nat * A -> Prop) (l : list A) :
  (forall i a, nth_error l i = Some a -> P i (i, a)) -> Forall2 P (seq 0 (length l)) (numbered l).
Proof. intro H. apply numbered_seq. exact H. Qed.
Lemma nth_combine {A B} (l : list A) (l' : list B) i a b :
  nth_error (combine l l') i = Some (a, b) <-> nth_error l i = Some a /\ nth_error l' i = Some b.
Proof.
  revert l' i. induction l as [|x l IH]; intros [|y l'] [|i]; cbn; try (split; [discriminate|intros []; discriminate]).
  - split; [intro H; injection H as <- <-; auto|intros [H H']; congruence].
  - apply IH.
Qed.
Lemma combine_len {A B} (l : list A) (l' : list B) : length l = length l' -> length (combine l l') = length l.
Proof. intro H. rewrite combine_length. lia. Qed.
Lemma forM_ext {A A' B} (f : A -> outcome B) (g : A' -> outcome B) l l' :
  Forall2 (fun a a' => f a = g a') l l' -> forM f l = forM g l'.
Proof. induction 1 as [|a a' l l' H F IH]; cbn [forM]; [reflexivity|]. now rewrite H, IH. Qed.
Lemma draw_each_ext {A A' B} (f : A -> outcome (list B)) (g : A' -> outcome (list B)) l l' :
  Forall2 (fun a a' => f a = g a') l l' -> draw_each f l = draw_each g l'.
Proof. induction 1 as [|a a' l l' H F IH]; cbn [draw_each]; [reflexivity|]. now rewrite H, IH. Qed.

(** The loops over two columns of the same length. *)
Lemma loop2 {B} (xs ys : list xr) (g : nat -> xr -> xr -> outcome (list B)) : length xs = length ys ->
  draw_each (fun i => let* x := at_ xs i in let* y := at_ ys i in g i x y) (seq 0 (length xs)) =
  draw_each (fun ia => g (fst ia) (fst (snd ia)) (snd (snd ia))) (numbered (combine xs ys)).
Proof.
  intro L. apply draw_each_ext. rewrite <- (combine_len xs ys L) at 1. apply numbered_Forall2.
  intros i [x y] H. apply nth_combine in H as [Hx Hy]. unfold at_. now rewrite Hx, Hy.
Qed.
Lemma loop2M {B} (xs ys : list xr) (g : nat -> xr -> xr -> outcome B) : length xs = length ys ->
  forM (fun i => let* x := at_ xs i in let* y := at_ ys i in g i x y) (seq 0 (length xs)) =
  forM (fun ia => g (fst ia) (fst (snd ia)) (snd (snd ia))) (numbered (combine xs ys)).
Proof.
  intro L. apply forM_ext. rewrite <- (combine_len xs ys L) at 1. apply numbered_Forall2.
  intros i [x y] H. apply nth_combine in H as [Hx Hy]. unfold at_. now rewrite Hx, Hy.
Qed.
Lemma draw_each_drawn {A} (g : nat -> A -> outcome (list draw_command)) l out :
  draw_each (fun ia => g (fst ia) (snd ia)) (numbered l) = Ret out <-> drawn g l out.
Proof. rewrite draw_each_ok. reflexivity. Qed.
Lemma numbered_map {A} (l : list A) : map snd (numbered l) = l.
Proof.
  unfold numbered. generalize 0%nat. induction l as [|a l IH]; intro k; cbn [length seq combine map]; [reflexivity|].
  now rewrite IH.
Qed.
Lemma forM_ret {A B} (f : A -> B) l : forM (fun a => Ret (f a)) l = Ret (map f l).
Proof. induction l as [|a l IH]; cbn [forM map]; [reflexivity|]. cbn [bind]. now rewrite IH. Qed.
Lemma draw_each_ret {A B} (f : A -> list B) l : draw_each (fun a => Ret (f a)) l = Ret (flat_map f l).
Proof. induction l as [|a l IH]; cbn [draw_each flat_map]; [reflexivity|]. cbn [bind]. now rewrite IH. Qed.

(* ---------------- columns ---------------- *)
Lemma numbers_len b ix : forall acc vs, to_numbers_loop xr (fun _ => NaN) b ix acc = Ret vs ->
  length vs = (length acc + length ix)%nat.
Proof.
  induction ix as [|[[|] pos] ix IH]; intros acc vs H; cbn [to_numbers_loop] in H.
  - injection H as <-. cbn. lia.
  - destruct nth_error; [|discriminate]. apply IH in H. rewrite app_length in H. cbn [length] in *. lia.
  - destruct nth_error; [|discriminate]. apply IH in H. rewrite app_length in H. cbn [length] in *. lia.
Qed.
Lemma numbers_length g b ix : forall acc vs, to_numbers_loop xr g b ix acc = Ret vs ->
  length vs = (length acc + length ix)%nat.
Proof.
  induction ix as [|[[|] pos] ix IH]; intros acc vs H; cbn [to_numbers_loop] in H.
  - injection H as <-. cbn. lia.
  - destruct nth_error; [|discriminate]. apply IH in H. rewrite app_length in H. cbn [length] in *. lia.
  - destruct nth_error; [|discriminate]. apply IH in H. rewrite app_length in H. cbn [length] in *. lia.
Qed.
Lemma texts_length g b ix : forall acc vs, to_text_loop xr g b ix acc = Ret vs ->
  length vs = (length acc + length ix)%nat.
Proof.
  induction ix as [|[[|] pos] ix IH]; intros acc vs H; cbn [to_text_loop] in H.
  - injection H as <-. cbn. lia.
  - destruct nth_error; [|discriminate]. apply IH in H. rewrite app_length in H. cbn [length] in *. lia.
  - destruct nth_error; [|discriminate]. apply IH in H. rewrite app_length in H. cbn [length] in *. lia.
Qed.
Lemma map_loop_length d s : forall ts acc vs, map_loop d s ts acc = (vs, Ret tt) ->
  length vs = (length acc + length ts)%nat.
Proof.
  induction ts as [|t ts IH]; intros acc vs H; cbn [map_loop] in H.
  - injection H as <-. cbn. lia.
  - destruct (assoc t (s_cmap s)); [|discriminate]. apply IH in H. rewrite app_length in H. cbn [length] in *. lia.
Qed.
Lemma translatev_length d f s : forall vs xs, translatev d f s vs = Ret xs -> length xs = length vs.
Proof.
  induction vs as [|v vs IH]; intros xs H; cbn [translatev] in H.
  - injection H as <-. reflexivity.
  - inv_bind H. inv_bind H. injection H as <-. cbn. now rewrite (IH _ A0).
Qed.
Lemma translatev_forM d f s vs : translatev d f s vs = forM (scale_translate d f s) vs.
Proof. induction vs as [|v vs IH]; cbn; [reflexivity|]. now rewrite IH. Qed.

Section P.
  Variable W : world.
  Variable E : env.
  Notation d := (w_d W).
  Notation f := (w_f W).
  Notation clip p := (plot_clip W E p).

  Lemma to_unit_length s b xs : to_unit W s b = Ret xs -> length xs = databuf_len xr b.
  Proof.
    unfold to_unit, translatev_buf, databuf_len. destruct (s_kind s).
    - intro H. inv_bind H. inv_bind H. unfold databuf_to_numbers in A0.
      rewrite (translatev_length _ _ _ _ _ H), (numbers_length _ _ _ _ _ A0). reflexivity.
    - intro H. inv_bind H. inv_bind H. unfold databuf_to_numbers in A0.
      rewrite (translatev_length _ _ _ _ _ H), (numbers_length _ _ _ _ _ A0). reflexivity.
    - unfold map_categories. destruct databuf_to_text as [ts| | | |] eqn:T; try discriminate.
      destruct (map_loop d s ts []) as [vs [[]| | | |]] eqn:M; try discriminate.
      intro H. unfold databuf_to_text in T.
      rewrite (translatev_length _ _ _ _ _ H), (map_loop_length _ _ _ _ _ M), (texts_length _ _ _ _ _ T). reflexivity.
  Qed.

  Lemma place_spot c x y : place_pt W c x y = spot d c (x, y).
  Proof. reflexivity. Qed.

  (* ---------------- options ---------------- *)
  Definition src_options : list (str * cmd src) := src_entries (fun s => s) (fun v _ => v).
  Lemma setting_opt {S T} (k : string) (rd : list expr -> outcome T) (g : S -> T) tbl e s s' :
    projects g tbl [(s_ k, fun a _ => rd a)] -> run tbl e s = Ret s' -> setting k rd e (g s) = Ret (g s').
  Proof.
    intros P H. apply (run_proj g tbl _ P) in H. apply options_last in H. unfold setting.
    destruct (last_args (s_ k) e); [exact H|congruence].
  Qed.
  Lemma src_source e s : options src_options e src0 = Ret s -> s = source_of e.
  Proof.
    intro H.
    assert (In1 : incl (map fst [(s_ "data", fun a (_ : str) => expr_to_string a)]) (map fst src_options)).
    { intros x [<-|[]]. now left. }
    assert (A1 : projects d_ref src_options [(s_ "data", fun a _ => expr_to_string a)]) by projection.
    assert (A2 : projects d_fmt src_options [(s_ "data-format", fun a _ => expr_to_string a)]) by projection.
    assert (A3 : projects d_x src_options [(s_ "data-x", fun a _ => expr_to_copy a)]) by projection.
    assert (A4 : projects d_y src_options [(s_ "data-y", fun a _ => expr_to_copy a)]) by projection.
    pose proof (options_last _ _ _ _ _ (options_proj _ _ _ A1 ltac:(intros x [<-|[]]; cbn; tauto) _ _ _ H)) as B1.
    pose proof (options_last _ _ _ _ _ (options_proj _ _ _ A2 ltac:(intros x [<-|[]]; cbn; tauto) _ _ _ H)) as B2.
    pose proof (options_last _ _ _ _ _ (options_proj _ _ _ A3 ltac:(intros x [<-|[]]; cbn; tauto) _ _ _ H)) as B3.
    pose proof (options_last _ _ _ _ _ (options_proj _ _ _ A4 ltac:(intros x [<-|[]]; cbn; tauto) _ _ _ H)) as B4.
    unfold expr_to_copy, src0 in *. destruct s as [r fm x y]. cbn [d_ref d_fmt d_x d_y] in *. unfold source_of, word_of, ref_of.
    f_equal.
    - destruct (last_args (s_ "data") e); [|exact B1]. unfold expr_to_string in B1. destruct value_of; congruence.
    - destruct (last_args (s_ "data-format") e); [|exact B2]. unfold expr_to_string in B2. destruct value_of; congruence.
    - destruct (last_args (s_ "data-x") e) as [[|]|]; congruence.
    - destruct (last_args (s_ "data-y") e) as [[|]|]; congruence.
  Qed.
  Lemma src_ok {S} (g : S -> src) tbl e s s' :
    projects g tbl src_options -> g s = src0 -> run tbl e s = Ret s' -> g s' = source_of e.
  Proof.
    intros P H0 H. apply (run_proj g tbl _ P) in H. rewrite H0 in H. now apply src_source.
  Qed.
  Lemma scale_x_ok {S} (g : S -> scale) tbl e s s' :
    projects g tbl (scale_options W "x") -> run tbl e s = Ret s' -> element_scale W "x" e (g s) = Ret (g s').
  Proof. intros P H. exact (run_proj g tbl _ P _ _ _ H). Qed.
  Lemma scale_y_ok {S} (g : S -> scale) tbl e s s' :
    projects g tbl (scale_options W "y") -> run tbl e s = Ret s' -> element_scale W "y" e (g s) = Ret (g s').
  Proof. intros P H. exact (run_proj g tbl _ P _ _ _ H). Qed.

  (* ---------------- labels ---------------- *)
  Lemma draw_labels_ok l (xs ys : list xr) (pos : nat -> xr -> xr -> vec2) ax ay out : length xs = length ys ->
    draw_labels W E l (fun i => let* x := at_ xs i in let* y := at_ ys i in Ret (pos i x y)) ax ay = Ret out ->
    labels_beside W E l ax ay (map (fun iq => pos (fst iq) (fst (snd iq)) (snd (snd iq))) (numbered (combine xs ys))) out.
  Proof.
    intros L H. unfold draw_labels in H. set (ps := map _ _).
    assert (NP : forall i p, nth_error ps i = Some p <->
              exists x y, nth_error xs i = Some x /\ nth_error ys i = Some y /\ p = pos i x y).
    { intros i p. unfold ps. rewrite nth_error_map. unfold numbered.
      destruct (nth_error (combine (seq 0 (length (combine xs ys))) (combine xs ys)) i) as [[j [x y]]|] eqn:N; cbn [option_map fst snd].
      - apply nth_combine in N as [N1 N2]. apply nth_combine in N2 as [N2 N3].
        assert (j = i) as ->.
        { assert (I : (i < length (combine xs ys))%nat).
          { rewrite <- (seq_length (length (combine xs ys)) 0). apply nth_error_Some. congruence. }
          rewrite (nth_error_nth' _ 0%nat) in N1 by (now rewrite seq_length). rewrite seq_nth in N1 by exact I.
          injection N1 as <-. reflexivity. }
        split; [intro X; injection X as <-; eauto|].
        intros (x' & y' & X & Y & ->). congruence.
      - split; [discriminate|]. intros (x & y & X & Y & ->). exfalso.
        assert (C : nth_error (combine xs ys) i = Some (x, y)) by (now apply nth_combine).
        assert (I : (i < length (combine xs ys))%nat) by (apply nth_error_Some; congruence).
        enough (nth_error (combine (seq 0 (length (combine xs ys))) (combine xs ys)) i = Some (i, (x, y))) by congruence.
        apply nth_combine. split; [|exact C]. rewrite (nth_error_nth' _ 0%nat) by (now rewrite seq_length).
        now rewrite seq_nth. }
    apply draw_each_ok in H as (parts & F & ->).
    assert (LE : (length (lb_text l) <= length ps)%nat).
    { destruct (le_lt_dec (length (lb_text l)) (length ps)) as [?|X]; [assumption|exfalso].
      assert (X1 : exists t, nth_error (lb_text l) (length ps) = Some t).
      { destruct (nth_error (lb_text l) (length ps)) eqn:N; eauto. apply nth_error_None in N. lia. }
      destruct X1 as [t T].
      assert (X2 : nth_error (with_index (lb_text l)) (length ps) = Some (length ps, t)).
      { apply nth_combine. split; [|exact T]. rewrite (nth_error_nth' _ 0%nat) by (now rewrite seq_length).
        now rewrite seq_nth. }
      clear T X. revert X2. generalize (length ps) at 1. induction F as [|it part l0 parts H F IH]; intros [|n] X2; try discriminate.
      - injection X2 as ->. cbn [fst snd] in H. inv_bind H. inv_bind A. inv_bind A.
        injection A as <-. apply at_ok in A0, A1.
        assert (Y : nth_error ps (length ps) <> None).
        { intro Y. assert (nth_error ps (length ps) = Some (pos (length ps) v0 v1)) by (apply NP; eauto). congruence. }
        apply nth_error_Some in Y. lia.
      - exact (IH n X2). }
    split; [exact LE|]. exists parts. split; [|reflexivity].
    unfold with_index in F. unfold numbered. rewrite combine_length, Nat.min_l by exact LE.
    clear LE. revert F. generalize (lb_text l). intro ts. clearbody ps.
    assert (G : forall i, (forall j p, nth_error (skipn i ps) j = Some p <->
                 exists x y, nth_error xs (i + j) = Some x /\ nth_error ys (i + j) = Some y /\ p = pos (i + j)%nat x y) ->
      forall ts parts, Forall2 (fun (a : nat * str) b =>
         (let* p := (let* x := at_ xs (fst a) in let* y := at_ ys (fst a) in Ret (pos (fst a) x y)) in
          label_at W E l (snd a) p ax ay) = Ret b) (combine (seq i (length ts)) ts) parts ->
      Forall2 (fun (ia : nat * (str * vec2)) part =>
        draw_text_ W E (lb_font l) (lb_size l) (lb_color l) (fst (snd ia)) (snd (snd ia)) ax ay (Fin 0) = Ret part)
        (combine (seq i (length ts)) (combine ts (skipn i ps))) parts).
    { clear. intros i NP ts. revert i NP. induction ts as [|t ts IH]; intros i NP parts F.
      - inversion F. constructor.
      - cbn [length seq combine] in F. inversion F as [|? part ? parts' H F']; subst. cbn [fst snd] in H.
        inv_bind H. inv_bind A. inv_bind A. injection A as <-. apply at_ok in A0, A1.
        assert (N : nth_error (skipn i ps) 0 = Some (pos i v0 v1)).
        { apply NP. rewrite Nat.add_0_r. eauto. }
        destruct (skipn i ps) as [|q qs] eqn:SK; [discriminate|]. cbn in N. injection N as ->.
        cbn [length seq combine]. constructor; [exact H|].
        assert (SK' : skipn (Datatypes.S i) ps = qs).
        { clear - SK. revert SK. generalize (pos i v0 v1). intros q SK. revert ps SK. induction i as [|i IHi]; intros [|a ps] SK; cbn in *; try discriminate; [congruence|].
          apply IHi. exact SK. }
        rewrite <- SK'. apply IH; [|exact F']. intros j p. rewrite SK'.
        specialize (NP (Datatypes.S j) p). cbn [nth_error] in NP.
        replace (i + Datatypes.S j)%nat with (Datatypes.S i + j)%nat in NP by lia. exact NP. }
    intro F. apply (G 0%nat NP). exact F.
  Qed.

  (* ---------------- lines ---------------- *)
  (** Group starts, from [b] to the end [n]. *)
  Fixpoint starts (b : nat) (l : list nat) (n : nat) : Prop :=
    match l with [] => (b <= n)%nat | g :: r => (b <= g)%nat /\ starts g r n end.
  Lemma starts_grow l : forall b n n', (n <= n')%nat -> starts b l n -> starts b l n'.
  Proof. induction l as [|g l IH]; intros b n n' L; cbn [starts]; [lia|]. intros [H S]. split; eauto. Qed.
  Lemma starts_snoc l : forall b n, starts b l n -> starts b (l ++ [n]) n.
  Proof. induction l as [|g l IH]; intros b n; cbn [starts app]; [lia|]. intros [H S]. auto. Qed.
  Lemma starts_le l : forall b n, starts b l n -> (b <= n)%nat.
  Proof. induction l as [|g l IH]; intros b n; cbn [starts]; [lia|]. intros [H S]. apply IH in S. lia. Qed.

  Notation len := (databuf_len xr).
  Lemma len_add_num (b : databuf xr) v : len (databuf_add_num xr b v) = Datatypes.S (len b).
  Proof. unfold databuf_len, databuf_add_num. cbn [index]. rewrite app_length. cbn. lia. Qed.
  Lemma add_pts_len pts : forall b,
    len (fst (add_pts pts b)) = (len (fst b) + length pts)%nat /\ len (snd (add_pts pts b)) = (len (snd b) + length pts)%nat.
  Proof.
    unfold add_pts. induction pts as [|q pts IH]; intro b; cbn [fold_left length]; [lia|].
    destruct (IH (databuf_add_num xr (fst b) (fst q), databuf_add_num xr (snd b) (snd q))) as [A B].
    rewrite A, B. cbn [fst snd]. rewrite !len_add_num. lia.
  Qed.
  Notation low2 b := (Nat.min (len (fst b)) (len (snd b))).
  Lemma add_lines_starts ls : forall b ix b' ix', add_lines ls b ix = (b', ix') ->
    starts 0 ix (low2 b) -> starts 0 ix' (low2 b').
  Proof.
    induction ls as [|l ls IH]; intros b ix b' ix' H S; cbn [add_lines] in H.
    - injection H as <- <-. exact S.
    - apply IH in H; [exact H|]. destruct (add_pts_len (map flat l) b) as [A B]. rewrite A, B.
      destruct (0 <? low2 b)%nat.
      + apply starts_grow with (low2 b); [lia|]. now apply starts_snoc.
      + apply starts_grow with (low2 b); [lia|exact S].
  Qed.
  Lemma add_line_shapes_starts ev : forall b ix b' ix', add_line_shapes ev b ix = (b', ix') ->
    starts 0 ix (low2 b) -> starts 0 ix' (low2 b').
  Proof.
    induction ev as [|sh ev IH]; intros b ix b' ix' H S; cbn [add_line_shapes] in H.
    - injection H as <- <-. exact S.
    - destruct sh as [ps|ls|ps]; [exact (IH _ _ _ _ H S)| |exact (IH _ _ _ _ H S)].
      destruct (add_lines ls b ix) as [b1 ix1] eqn:A. apply (IH _ _ _ _ H). exact (add_lines_starts _ _ _ _ _ A S).
  Qed.
  Lemma load_lines_starts s b groups : load_lines W s = Ret (b, groups) -> starts 0 groups (low2 b).
  Proof.
    unfold load_lines. intro H. inv_bind H. inv_bind H. destruct (d_ref s) as [|c path].
    - injection H as <- <-. cbn. lia.
    - destruct str_eqb; [inv_bind H; injection H as <- <-; cbn; lia|].
      destruct str_eqb; [|discriminate]. inv_bind H. injection H as H.
      exact (add_line_shapes_starts _ _ _ _ _ H (Nat.le_0_l _)).
  Qed.

  Lemma forM_seq {B} (g : nat -> outcome B) (P : list B) dm : (forall i, (i < length P)%nat -> g i = Ret (nth i P dm)) ->
    forall k b, (b + k <= length P)%nat -> forM g (seq b k) = Ret (map (fun i => nth i P dm) (seq b k)).
  Proof.
    intros G. induction k as [|k IH]; intros b L; cbn [seq forM map]; [reflexivity|].
    rewrite G by lia. cbn [bind]. rewrite IH by lia. reflexivity.
  Qed.
  Lemma map_nth_seq {A} (l : list A) dm : map (fun i => nth i l dm) (seq 0 (length l)) = l.
  Proof.
    induction l as [|a l IH]; [reflexivity|]. cbn [length seq map nth]. f_equal. rewrite <- seq_shift, map_map. exact IH.
  Qed.
  Lemma groups_drawn (P : list vec2) dm g (draw : list vec2 -> list draw_command) :
    (forall i, (i < length P)%nat -> g i = Ret (nth i P dm)) ->
    forall groups b n out, starts b groups n -> (n <= length P)%nat ->
    draw_each (fun be => let* pts := forM g (seq (fst be) (snd be - fst be)) in Ret (draw pts)) (combine (b :: groups) (groups ++ [n])) = Ret out ->
    exists parts, length parts = Datatypes.S (length groups) /\ out = flat_map draw parts /\
      concat parts = map (fun i => nth i P dm) (seq b (n - b)).
  Proof.
    intros G. induction groups as [|g1 gs IH]; intros b n out S L H.
    - cbn in S. cbn [app combine draw_each fst snd] in H. rewrite (forM_seq g P dm G) in H by lia. cbn [bind] in H.
      injection H as <-. eexists [_]. split; [reflexivity|]. split; [reflexivity|]. cbn [concat]. now rewrite app_nil_r.
    - cbn [starts] in S. destruct S as [S1 S2]. pose proof (starts_le _ _ _ S2). cbn [app combine draw_each fst snd] in H.
      rewrite (forM_seq g P dm G) in H by lia. cbn [bind] in H. inv_bind H. injection H as <-.
      destruct (IH _ _ _ S2 L A) as (parts & Lp & -> & C).
      eexists (_ :: parts). split; [cbn; now rewrite Lp|]. split; [reflexivity|]. cbn [concat]. rewrite C.
      rewrite <- map_app. f_equal. replace (n - b)%nat with ((g1 - b) + (n - g1))%nat by lia.
      rewrite seq_app. now replace (b + (g1 - b))%nat with g1 by lia.
  Qed.
  Lemma polyline_open l : open_line l (polyline l).
  Proof. destruct l; constructor. Qed.
  Lemma vertices_lines l : vertices (map LineTo l) = l.
  Proof. induction l as [|a l IH]; cbn; [reflexivity|]. now rewrite IH. Qed.
  Lemma vertices_polyline l : vertices (polyline l) = l.
  Proof. destruct l; cbn; [reflexivity|]. now rewrite vertices_lines. Qed.

  (** lines_table against its parts. *)
  Lemma lines_parts e p c : run (lines_table W E) e (lines0 W E p) = Ret c ->
    element_scale W "x" e (p_sx p) = Ret (l_sx c) /\ element_scale W "y" e (p_sy p) = Ret (l_sy c) /\
    l_src c = source_of e /\
    options (stroke_options W E) e (stroke_with (pt W E (15 / 10)) (e_fg E)) = Ret (l_stroke c) /\
    setting "marker-size" (rd_size W E) e (Fin 0) = Ret (l_msize c) /\
    setting "marker-shape" (marker_configure W) e Disk = Ret (l_marker c) /\
    options (label_options W E (rd_size W E)) e (plain_labels W E) = Ret (l_lbl c) /\
    options (color_options W E ["color"%string; "marker-color"%string]) e (e_fg E) = Ret (l_mcolor c).
  Proof.
    intro H.
    assert (X : projects l_sx (lines_table W E) (scale_options W "x")) by projection.
    assert (Y : projects l_sy (lines_table W E) (scale_options W "y")) by projection.
    assert (S : projects l_src (lines_table W E) src_options) by projection.
    assert (T : projects l_stroke (lines_table W E) (stroke_options W E)) by projection.
    assert (M : projects l_msize (lines_table W E) [(s_ "marker-size", fun a _ => rd_size W E a)]) by projection.
    assert (K : projects l_marker (lines_table W E) [(s_ "marker-shape", fun a _ => marker_configure W a)]) by projection.
    assert (B : projects l_lbl (lines_table W E) (label_options W E (rd_size W E))) by projection.
    assert (C : projects l_mcolor (lines_table W E) (color_options W E ["color"%string; "marker-color"%string])) by projection.
    split; [exact (run_proj _ _ _ X _ _ _ H)|]. split; [exact (run_proj _ _ _ Y _ _ _ H)|].
    split; [exact (src_ok _ _ _ (lines0 W E p) _ S eq_refl H)|]. split; [exact (run_proj _ _ _ T _ _ _ H)|].
    split; [exact (setting_opt "marker-size" _ _ _ _ _ _ M H)|].
    split; [exact (setting_opt "marker-shape" _ _ _ _ _ _ K H)|]. split; [exact (run_proj _ _ _ B _ _ _ H)|].
    exact (run_proj _ _ _ C _ _ _ H).
  Qed.

  (* ---------------- points ---------------- *)
  Lemma options_fail {S} k (g : cmd S) : (forall a s s', g a s <> Ret s') ->
    forall e s s', options [(k, g)] e s = Ret s' -> last_args k e = None /\ s' = s.
  Proof.
    intros G. induction e as [|x e IH]; intros s s' H.
    - injection H as <-. auto.
    - rewrite options_cons in H. cbn [last_args]. destruct (option_of x) as [[k' a]|]; [|discriminate].
      cbn [assoc] in H. destruct (str_eqb_spec k' k) as [->|N].
      + inv_bind H. now apply G in A.
      + destruct (IH _ _ H) as [-> ->]. auto.
  Qed.
  Lemma marker_of_list l r : marker_configure W (EList l :: r) = Err.
  Proof. reflexivity. Qed.
  Lemma marker_list_err e old : marker_configure_list W e old = Err.
  Proof. destruct e as [|[[|[l|v|v] r]|v|v] e]; reflexivity. Qed.
  Lemma points_parts e p c : run (points_table W E) e (points0 W E p) = Ret c ->
    element_scale W "x" e (p_sx p) = Ret (p_sx_ c) /\ element_scale W "y" e (p_sy p) = Ret (p_sy_ c) /\
    p_src c = source_of e /\
    options (mark_options W E) e (plain_marks E (pt W E 4)) = Ret (p_marks c) /\
    setting "shape" (marker_configure W) e Disk = Ret (p_shape c) /\
    p_shapes c = [] /\ last_args (s_ "shapes") e = None /\
    options (label_options W E (rd_size W E) ++ font_options W) e (plain_labels W E) = Ret (p_lbl c).
  Proof.
    intro H.
    assert (X : projects p_sx_ (points_table W E) (scale_options W "x")) by projection.
    assert (Y : projects p_sy_ (points_table W E) (scale_options W "y")) by projection.
    assert (S : projects p_src (points_table W E) src_options) by projection.
    assert (T : projects p_marks (points_table W E) (mark_options W E)) by projection.
    assert (M : projects p_shape (points_table W E) [(s_ "shape", fun a _ => marker_configure W a)]) by projection.
    assert (K : projects p_shapes (points_table W E) [(s_ "shapes", marker_configure_list W)]) by projection.
    assert (B : projects p_lbl (points_table W E) (label_options W E (rd_size W E) ++ font_options W)) by projection.
    split; [exact (run_proj _ _ _ X _ _ _ H)|]. split; [exact (run_proj _ _ _ Y _ _ _ H)|].
    split; [exact (src_ok _ _ _ (points0 W E p) _ S eq_refl H)|]. split; [exact (run_proj _ _ _ T _ _ _ H)|].
    split; [exact (setting_opt "shape" _ _ _ _ _ _ M H)|].
    pose proof (run_proj _ _ _ K _ _ _ H) as L.
    assert (Z : last_args (s_ "shapes") e = None /\ p_shapes c = []).
    { apply (options_fail (s_ "shapes") (marker_configure_list W)) in L; [exact L|]. intros. rewrite marker_list_err. discriminate. }
    split; [apply Z|]. split; [apply Z|]. exact (run_proj _ _ _ B _ _ _ H).
  Qed.
End P.
