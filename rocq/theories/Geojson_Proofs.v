From Verif Require Import Base Json_Model Json_Spec Json_Proofs Geojson_Model Geojson_Spec.
From Coq Require Import ZArith Permutation.

Section P.
  Variable num : Type.
  Variable zero : num.
  Variable stod : str -> option num.
  Notation vec3 := (num * num * num)%type.
  Notation shape := (shape num).
  Notation coord := (num * Z)%type.
  Notation coords_loop := (coords_loop num stod).
  Notation pos2 := (pos2 num zero stod).
  Notation object_data := (object_data num zero stod).
  Notation read_object := (read_object num zero stod).
  Notation objects_loop := (objects_loop num zero stod).
  Notation read_objects := (read_objects num zero stod).
  Notation read_coords := (read_coords num stod).

  (** The coordinates a tree contributes when read at nesting [level] with pending [rl]. *)
  Fixpoint walk (j : json) (level rl : Z) : option (list coord * Z) :=
    match j with
    | JNum d => match stod d with Some v => Some ([(v, rl)], level) | None => None end
    | JArr l =>
        match (fix wl (l : list json) (rl : Z) : option (list coord * Z) :=
                 match l with
                 | [] => Some ([], rl)
                 | x :: r => match walk x (level + 1) rl with
                             | Some (c1, rl1) => match wl r rl1 with
                                                 | Some (c2, rl2) => Some (c1 ++ c2, rl2)
                                                 | None => None end
                             | None => None end
                 end) l rl with
        | Some (c, _) => Some (c, level)
        | None => None
        end
    | _ => None
    end.
  Fixpoint walk_list (l : list json) (level rl : Z) : option (list coord * Z) :=
    match l with
    | [] => Some ([], rl)
    | x :: r => match walk x level rl with
                | Some (c1, rl1) => match walk_list r level rl1 with
                                    | Some (c2, rl2) => Some (c1 ++ c2, rl2)
                                    | None => None end
                | None => None end
    end.
  Lemma walk_arr l level rl : walk (JArr l) level rl =
    match walk_list l (level + 1) rl with Some (c, _) => Some (c, level) | None => None end.
  Proof.
    cbn [walk].
    match goal with |- match ?f l rl with _ => _ end = _ => assert (forall l rl, f l rl = walk_list l (level + 1) rl) as X end.
    { clear. induction l as [|x r IH]; intro rl; cbn [walk_list]; auto.
      destruct (walk x (level + 1) rl) as [[c1 rl1]|]; auto. now rewrite IH. }
    now rewrite X.
  Qed.

  Definition loop_reads (j : json) : Prop := forall level rl cs rl' s s1 acc n, (0 <= level)%Z ->
    walk j level rl = Some (cs, rl') -> delivers (tokens j) s s1 -> length s <= n ->
    exists n', length s1 <= n' /\ coords_loop n s level rl acc = coords_loop n' s1 level rl' (acc ++ cs).

  Lemma coords_step n s level rl acc : (0 <= level)%Z ->
    coords_loop (S n) s level rl acc =
     jbind (json_parse s) (fun t s =>
        match t with
        | TNum d =>
            match stod d with
            | None => (Err, s)
            | Some v => coords_loop n s level level (acc ++ [(v, rl)])
            end
        | TArrB => coords_loop n s (level + 1)%Z rl acc
        | TArrE => coords_loop n s (level - 1)%Z (level - 1)%Z acc
        | _ => (Err, s)
        end).
  Proof. intro H. cbn [Geojson_Model.coords_loop]. rewrite (proj2 (Z.ltb_ge level 0)) by auto. reflexivity. Qed.

  Lemma loop_list l : Forall loop_reads l -> forall level rl cs rl' s s1 acc n, (0 <= level)%Z ->
    walk_list l level rl = Some (cs, rl') -> delivers (flat_map tokens l) s s1 -> length s <= n ->
    exists n', length s1 <= n' /\ coords_loop n s level rl acc = coords_loop n' s1 level rl' (acc ++ cs).
  Proof.
    induction 1 as [|x l Hx Hl IH]; intros level rl cs rl' s s1 acc n Hlev W D Hn; cbn [walk_list flat_map] in *.
    - injection W; intros; subst. inversion D; subst. exists n. rewrite app_nil_r. auto.
    - destruct (walk x level rl) as [[c1 rl1]|] eqn:W1; [|discriminate].
      destruct (walk_list l level rl1) as [[c2 rl2]|] eqn:W2; [|discriminate].
      injection W; intros; subst. apply delivers_app in D as (m & D1 & D2).
      destruct (Hx _ _ _ _ _ _ acc n Hlev W1 D1 Hn) as (n1 & Hn1 & ->).
      destruct (IH _ _ _ _ _ _ (acc ++ c1) n1 Hlev W2 D2 Hn1) as (n2 & Hn2 & ->).
      exists n2. rewrite app_assoc. auto.
  Qed.

  Lemma loop_all j : loop_reads j.
  Proof.
    induction j using json_ind'; unfold loop_reads; intros level rl cs rl' s s1 acc n Hlev W D Hn; try discriminate W.
    - cbn in W. destruct (stod l) as [v|] eqn:S; [|discriminate]. injection W; intros; subst.
      cbn [tokens] in D. inversion D as [|t0 ts0 s0 s2 s3 J D']; subst. inversion D'; subst.
      pose proof (json_parse_len _ _ _ J). destruct n as [|n]; [lia|].
      exists n. split; [lia|]. rewrite coords_step by auto. rewrite J. cbn [jbind]. now rewrite S.
    - rewrite walk_arr in W. destruct (walk_list l (level + 1) rl) as [[c r]|] eqn:W1; [|discriminate].
      injection W; intros E1 E2; subst c level. cbn [tokens] in D. inversion D as [|t0 ts0 s0 s2 s3 J D']; subst.
      apply delivers_app in D' as (m & D1 & D2). inversion D2 as [|t0 ts0 s0 s4 s5 J2 D3]; subst. inversion D3; subst.
      pose proof (json_parse_len _ _ _ J). pose proof (json_parse_len _ _ _ J2).
      destruct n as [|n]; [lia|]. rewrite coords_step by auto. rewrite J. cbn [jbind].
      destruct (loop_list l H (rl' + 1)%Z rl _ _ _ _ acc n ltac:(lia) W1 D1 ltac:(lia)) as (n1 & Hn1 & ->).
      destruct n1 as [|n1]; [lia|]. rewrite coords_step by lia. rewrite J2. cbn [jbind].
      replace (rl' + 1 - 1)%Z with rl' by lia. exists n1. split; [lia|reflexivity].
  Qed.

  Lemma read_coords_ok l cs rl' s m acc n : walk_list l 0 0 = Some (cs, rl') ->
    delivers (tokens (JArr l)) s m -> length s <= n -> read_coords n s acc = (Ret (acc ++ cs), m).
  Proof.
    intros W D Hn. cbn [tokens] in D. inversion D as [|t0 ts0 s0 s2 s3 J D']; subst.
    apply delivers_app in D' as (m1 & D1 & D2). inversion D2 as [|t0 ts0 s0 s4 s5 J2 D3]; subst. inversion D3; subst.
    pose proof (json_parse_len _ _ _ J). pose proof (json_parse_len _ _ _ J2).
    unfold Geojson_Model.read_coords, read_array_begin. rewrite J. cbn [jbind].
    assert (Forall loop_reads l) as A by (apply Forall_forall; intros; apply loop_all).
    destruct (loop_list l A 0%Z 0%Z _ _ _ _ acc n ltac:(lia) W D1 ltac:(lia)) as (n1 & Hn1 & ->).
    destruct n1 as [|n1]; [lia|]. rewrite coords_step by lia. rewrite J2. cbn [jbind].
    destruct n1; reflexivity.
  Qed.

  (* -- coordinates of rings, lines, ... -- *)
  (** positions read at [level]: first x has pending [rl], later ones [level]. *)
  Fixpoint ring_coords (level rl : Z) (ps : list vec3) : list coord :=
    match ps with
    | [] => []
    | (x, y, _) :: r => (x, rl) :: (y, level + 1)%Z :: ring_coords level level r
    end.
  Lemma walk_positions js ps : Forall2 pos2 js ps -> forall level rl,
    walk_list js level rl = Some (ring_coords level rl ps, match ps with [] => rl | _ => level end).
  Proof.
    induction 1 as [|j p js ps Hp H IH]; intros level rl; cbn [walk_list ring_coords]; auto.
    destruct Hp as [a b x y Ha Hb]. rewrite walk_arr. cbn [walk_list walk]. rewrite Ha, Hb. rewrite IH.
    cbn. destruct ps; reflexivity.
  Qed.
  Lemma walk_ring j ps level rl : arr pos2 j ps -> walk j level rl = Some (ring_coords (level + 1) rl ps, level).
  Proof. intros [js l Hne H]. rewrite walk_arr. now rewrite (walk_positions js l H). Qed.

  Fixpoint rings_coords (level rl : Z) (rs : list (list vec3)) : list coord :=
    match rs with
    | [] => []
    | r :: rest => ring_coords (level + 1) rl r ++ rings_coords level level rest
    end.
  Lemma walk_rings js rs : Forall2 (arr pos2) js rs -> forall level rl,
    walk_list js level rl = Some (rings_coords level rl rs, match rs with [] => rl | _ => level end).
  Proof.
    induction 1 as [|j r js rs Hr H IH]; intros level rl; cbn [walk_list rings_coords]; auto.
    rewrite (walk_ring _ _ _ _ Hr), IH. destruct rs; reflexivity.
  Qed.
  Fixpoint polys_coords (level rl : Z) (ps : list (list vec3 * list (list vec3))) : list coord :=
    match ps with
    | [] => []
    | (r, hs) :: rest => rings_coords (level + 1) rl (r :: hs) ++ polys_coords level level rest
    end.
  Lemma walk_polys js ps : Forall2 (polygon num zero stod) js ps -> forall level rl,
    walk_list js level rl = Some (polys_coords level rl ps, match ps with [] => rl | _ => level end).
  Proof.
    induction 1 as [|j p js ps Hp H IH]; intros level rl; cbn [walk_list polys_coords]; auto.
    destruct Hp as [j r holes Hr]. destruct Hr as [js' l Hne Hr]. rewrite walk_arr.
    rewrite (walk_rings js' l Hr). rewrite IH. destruct ps; reflexivity.
  Qed.

  Definition flat_pos (ps : list vec3) : Prop := Forall (fun p => snd p = zero) ps.
  Lemma pos2_flat js ps : Forall2 pos2 js ps -> flat_pos ps.
  Proof. induction 1 as [|j p js ps Hp H IH]; constructor; auto. destruct Hp; reflexivity. Qed.
  Lemma arr_pos_flat j ps : arr pos2 j ps -> flat_pos ps /\ ps <> [].
  Proof. intros [js l Hne H]. split; auto. eapply pos2_flat; eauto. Qed.
  Lemma arr_rings_flat js rs : Forall2 (arr pos2) js rs -> Forall (fun r => flat_pos r /\ r <> []) rs.
  Proof. induction 1; constructor; auto. eapply arr_pos_flat; eauto. Qed.

  (* -- assembling -- *)
  Lemma positions_ok ps : flat_pos ps -> forall n acc, length ps < n ->
    positions_loop num zero n (ring_coords 0 0 ps) acc = Ret (acc ++ ps).
  Proof.
    induction 1 as [|[[x y] z] ps Hz H IH]; intros n acc Hn; destruct n as [|n]; try (cbn in Hn; lia).
    - cbn. now rewrite app_nil_r.
    - cbn in Hz. subst z. cbn [ring_coords positions_loop snd fst]. cbn [Z.eqb negb orb].
      assert (match ring_coords 0 0 ps with
              | c :: _ => if (snd c =? 1)%Z then (x, y, fst c) else (x, y, zero)
              | [] => (x, y, zero) end = (x, y, zero)) as ->.
      { destruct ps as [|[[x' y'] z'] ps]; reflexivity. }
      rewrite IH by (cbn in Hn; lia). now rewrite <- app_assoc.
  Qed.

  Lemma ring_coords_length level rl ps : length (ring_coords level rl ps) = 2 * length ps.
  Proof. revert rl; induction ps as [|[[x y] z] ps IH]; intro rl; cbn; auto. rewrite IH. lia. Qed.

  Lemma push_last_snoc rs r v : push_last num (rs ++ [r]) v = Ret (rs ++ [r ++ [v]]).
  Proof.
    induction rs as [|a rs IH]; auto. cbn [app]. destruct (rs ++ [r]) eqn:E; [destruct rs; discriminate|].
    change (push_last num (a :: l :: l0) v) with (let* rs' := push_last num (l :: l0) v in Ret (a :: rs')).
    rewrite IH. reflexivity.
  Qed.
  Lemma snoc_nonempty {A} (l : list A) x : match l ++ [x] with [] => true | _ => false end = false.
  Proof. destruct l; reflexivity. Qed.

  (** Both loops with the common 3-D rule, parameterised by what a 3-D vertex becomes. *)
  Definition next_is2 (level : Z) (l : list coord) : Prop :=
    match l with [] => True | c :: _ => snd c <> level end.

  Lemma polygon_positions ps : flat_pos ps -> forall tail n rings r,
    next_is2 2 tail -> length (ring_coords 1 1 ps ++ tail) < n ->
    exists n', length tail < n' /\
    polygon_loop num zero n (ring_coords 1 1 ps ++ tail) (rings ++ [r]) =
    polygon_loop num zero n' tail (rings ++ [r ++ ps]).
  Proof.
    induction 1 as [|[[x y] z] ps Hz H IH]; intros tail n rings r Ht Hn.
    - exists n. cbn in *. rewrite app_nil_r. auto.
    - cbn in Hz. subst z. cbn [ring_coords app] in *. cbn [length] in Hn. destruct n as [|n]; [lia|].
      cbn [polygon_loop snd fst]. cbn [Z.eqb]. rewrite snoc_nonempty. cbn [Z.add Z.eqb Pos.add Pos.eqb negb orb Pos.succ].
      assert (match ring_coords 1 1 ps ++ tail with
              | c :: _ => if (snd c =? 2)%Z then (x, fst c, fst c) else (x, y, zero)
              | [] => (x, y, zero) end = (x, y, zero)) as ->.
      { destruct ps as [|[[x' y'] z'] ps]; cbn; auto. destruct tail as [|c t]; auto. cbn in Ht.
        rewrite (proj2 (Z.eqb_neq _ _) Ht). reflexivity. }
      rewrite push_last_snoc. cbn [bind].
      destruct (IH tail n rings (r ++ [(x, y, zero)]) Ht ltac:(lia)) as (n' & Hn' & ->).
      exists n'. rewrite <- app_assoc. auto.
  Qed.

  Lemma rings_next level rl rs : (0 <= rl <= level)%Z -> Forall (fun r : list vec3 => r <> []) rs -> next_is2 (level + 2) (rings_coords level rl rs).
  Proof.
    intros Hl H. destruct H as [|r rs Hr H]; cbn; auto. destruct r as [|[[x y] z] r]; [congruence|]. cbn. lia.
  Qed.

  Lemma polygon_rings rs : Forall (fun r => flat_pos r /\ r <> []) rs -> forall n rings,
    length (rings_coords 0 0 rs) < n -> polygon_loop num zero n (rings_coords 0 0 rs) rings = Ret (rings ++ rs).
  Proof.
    induction 1 as [|r rs [Hf Hne] H IH]; intros n rings Hn.
    - destruct n; [cbn in Hn; lia|]. cbn. now rewrite app_nil_r.
    - destruct r as [|[[x y] z] r]; [congruence|]. inversion Hf as [|? ? Hz Hf']; subst. cbn in Hz. subst z.
      cbn [rings_coords ring_coords app] in *. cbn [Z.add] in *. cbn [length] in Hn. destruct n as [|n]; [lia|].
      cbn [polygon_loop snd fst]. cbn [Z.eqb]. rewrite snoc_nonempty. cbn [Z.add Z.eqb Pos.add Pos.eqb negb orb Pos.succ].
      assert (next_is2 2 (rings_coords 0 0 rs)) as N.
      { apply (rings_next 0 0 rs); [lia|]. eapply Forall_impl; [|exact H]. cbn; tauto. }
      assert (match ring_coords 1 1 r ++ rings_coords 0 0 rs with
              | c :: _ => if (snd c =? 2)%Z then (x, fst c, fst c) else (x, y, zero)
              | [] => (x, y, zero) end = (x, y, zero)) as ->.
      { destruct r as [|[[x' y'] z'] r]; cbn; auto. destruct (rings_coords 0 0 rs) as [|c t]; auto. cbn in N.
        rewrite (proj2 (Z.eqb_neq _ _) N). reflexivity. }
      rewrite push_last_snoc. cbn [bind].
      destruct (polygon_positions r Hf' (rings_coords 0 0 rs) n rings ([] ++ [(x, y, zero)]) N ltac:(lia)) as (n' & Hn' & ->).
      rewrite IH by auto. rewrite <- app_assoc. reflexivity.
  Qed.

  Lemma lines_positions ps : flat_pos ps -> forall tail n rings r,
    next_is2 2 tail -> length (ring_coords 1 1 ps ++ tail) < n ->
    exists n', length tail < n' /\
    lines_loop num zero n (ring_coords 1 1 ps ++ tail) (rings ++ [r]) =
    lines_loop num zero n' tail (rings ++ [r ++ ps]).
  Proof.
    induction 1 as [|[[x y] z] ps Hz H IH]; intros tail n rings r Ht Hn.
    - exists n. cbn in *. rewrite app_nil_r. auto.
    - cbn in Hz. subst z. cbn [ring_coords app] in *. cbn [length] in Hn. destruct n as [|n]; [lia|].
      cbn [lines_loop snd fst]. cbn [Z.eqb]. rewrite snoc_nonempty. cbn [Z.add Z.eqb Pos.add Pos.eqb negb orb Pos.succ].
      assert (match ring_coords 1 1 ps ++ tail with
              | c :: _ => if (snd c =? 2)%Z then (x, y, fst c) else (x, y, zero)
              | [] => (x, y, zero) end = (x, y, zero)) as ->.
      { destruct ps as [|[[x' y'] z'] ps]; cbn; auto. destruct tail as [|c t]; auto. cbn in Ht.
        rewrite (proj2 (Z.eqb_neq _ _) Ht). reflexivity. }
      rewrite push_last_snoc. cbn [bind].
      destruct (IH tail n rings (r ++ [(x, y, zero)]) Ht ltac:(lia)) as (n' & Hn' & ->).
      exists n'. rewrite <- app_assoc. auto.
  Qed.

  Lemma lines_rings rs : Forall (fun r => flat_pos r /\ r <> []) rs -> forall n rings,
    length (rings_coords 0 0 rs) < n -> lines_loop num zero n (rings_coords 0 0 rs) rings = Ret (rings ++ rs).
  Proof.
    induction 1 as [|r rs [Hf Hne] H IH]; intros n rings Hn.
    - destruct n; [cbn in Hn; lia|]. cbn. now rewrite app_nil_r.
    - destruct r as [|[[x y] z] r]; [congruence|]. inversion Hf as [|? ? Hz Hf']; subst. cbn in Hz. subst z.
      cbn [rings_coords ring_coords app] in *. cbn [Z.add] in *. cbn [length] in Hn. destruct n as [|n]; [lia|].
      cbn [lines_loop snd fst]. cbn [Z.eqb]. rewrite snoc_nonempty. cbn [Z.add Z.eqb Pos.add Pos.eqb negb orb Pos.succ].
      assert (next_is2 2 (rings_coords 0 0 rs)) as N.
      { apply (rings_next 0 0 rs); [lia|]. eapply Forall_impl; [|exact H]. cbn; tauto. }
      assert (match ring_coords 1 1 r ++ rings_coords 0 0 rs with
              | c :: _ => if (snd c =? 2)%Z then (x, y, fst c) else (x, y, zero)
              | [] => (x, y, zero) end = (x, y, zero)) as ->.
      { destruct r as [|[[x' y'] z'] r]; cbn; auto. destruct (rings_coords 0 0 rs) as [|c t]; auto. cbn in N.
        rewrite (proj2 (Z.eqb_neq _ _) N). reflexivity. }
      rewrite push_last_snoc. cbn [bind].
      destruct (lines_positions r Hf' (rings_coords 0 0 rs) n rings ([] ++ [(x, y, zero)]) N ltac:(lia)) as (n' & Hn' & ->).
      rewrite IH by auto. rewrite <- app_assoc. reflexivity.
  Qed.

  (* multi polygon *)
  Lemma open_ring_snoc ps p : open_ring num (ps ++ [p]) = Ret (ps ++ [p ++ [[]]]).
  Proof.
    induction ps as [|a ps IH]; auto. cbn [app]. destruct (ps ++ [p]) eqn:E; [destruct ps; discriminate|].
    change (open_ring num (a :: l :: l0)) with (let* ps' := open_ring num (l :: l0) in Ret (a :: ps')).
    rewrite IH. reflexivity.
  Qed.
  Lemma push_last2_snoc ps p r v : push_last2 num (ps ++ [p ++ [r]]) v = Ret (ps ++ [p ++ [r ++ [v]]]).
  Proof.
    induction ps as [|a ps IH].
    - cbn [app push_last2]. rewrite push_last_snoc. reflexivity.
    - cbn [app]. destruct (ps ++ [p ++ [r]]) eqn:E; [destruct ps; discriminate|].
      change (push_last2 num (a :: l :: l0) v) with (let* ps' := push_last2 num (l :: l0) v in Ret (a :: ps')).
      rewrite IH. reflexivity.
  Qed.

  Lemma mpoly_positions ps : flat_pos ps -> forall tail n polys p r,
    next_is2 3 tail -> length (ring_coords 2 2 ps ++ tail) < n ->
    exists n', length tail < n' /\
    multi_polygon_loop num zero n (ring_coords 2 2 ps ++ tail) (polys ++ [p ++ [r]]) =
    multi_polygon_loop num zero n' tail (polys ++ [p ++ [r ++ ps]]).
  Proof.
    induction 1 as [|[[x y] z] ps Hz H IH]; intros tail n polys p r Ht Hn.
    - exists n. cbn in *. rewrite app_nil_r. auto.
    - cbn in Hz. subst z. cbn [ring_coords app] in *. cbn [length] in Hn. destruct n as [|n]; [lia|].
      cbn [multi_polygon_loop snd fst]. cbn [Z.eqb bind Pos.eqb]. rewrite snoc_nonempty.
      cbn [Z.add Z.eqb Pos.add Pos.eqb negb orb Pos.succ].
      assert (match ring_coords 2 2 ps ++ tail with
              | c :: _ => if (snd c =? 3)%Z then (x, fst c, fst c) else (x, y, zero)
              | [] => (x, y, zero) end = (x, y, zero)) as ->.
      { destruct ps as [|[[x' y'] z'] ps]; cbn; auto. destruct tail as [|c t]; auto. cbn in Ht.
        rewrite (proj2 (Z.eqb_neq _ _) Ht). reflexivity. }
      rewrite push_last2_snoc. cbn [bind].
      destruct (IH tail n polys p (r ++ [(x, y, zero)]) Ht ltac:(lia)) as (n' & Hn' & ->).
      exists n'. rewrite <- app_assoc. auto.
  Qed.

  (** one ring, opened by pending level rl (0: new polygon, 1: next ring) *)
  Lemma mpoly_ring r rl : flat_pos r -> r <> [] -> (rl = 0 \/ rl = 1)%Z -> forall tail n polys,
    next_is2 3 tail -> length (ring_coords 2 rl r ++ tail) < n ->
    (rl = 1%Z -> polys <> []) ->
    exists n', length tail < n' /\
    multi_polygon_loop num zero n (ring_coords 2 rl r ++ tail) polys =
    multi_polygon_loop num zero n' tail
      (if (rl =? 0)%Z then polys ++ [[r]] else removelast polys ++ [last polys [] ++ [r]]).
  Proof.
    intros Hf Hne Hrl tail n polys Ht Hn Hp.
    destruct r as [|[[x y] z] r]; [congruence|]. inversion Hf as [|? ? Hz Hf']; subst. cbn in Hz. subst z.
    cbn [ring_coords app] in *. cbn [Z.add] in *. cbn [length] in Hn. destruct n as [|n]; [lia|].
    cbn [multi_polygon_loop snd fst].
    assert (exists ps p, (if (rl =? 0)%Z then polys ++ [[]] else polys) = ps ++ [p] /\
       (if (rl =? 0)%Z then open_ring num (polys ++ [[]]) else if (rl =? 1)%Z then open_ring num polys else Ret polys)
        = Ret (ps ++ [p ++ [[]]]) /\
       (forall q, (if (rl =? 0)%Z then polys ++ [[q]] else removelast polys ++ [last polys [] ++ [q]]) = ps ++ [p ++ [q]]))
      as (ps & p & _ & E2 & E3).
    { destruct Hrl as [-> | ->]; cbn [Z.eqb Pos.eqb].
      - exists polys, []. repeat split. apply open_ring_snoc.
      - specialize (Hp eq_refl). destruct (exists_last Hp) as (ps & p & ->). exists ps, p.
        repeat split; [apply open_ring_snoc|]. intro q. now rewrite removelast_last, last_last. }
    rewrite E2. cbn [bind]. rewrite snoc_nonempty.
    cbn [Z.add Z.eqb Pos.add Pos.eqb negb orb Pos.succ].
    assert (match ring_coords 2 2 r ++ tail with
              | c :: _ => if (snd c =? 3)%Z then (x, fst c, fst c) else (x, y, zero)
              | [] => (x, y, zero) end = (x, y, zero)) as ->.
    { destruct r as [|[[x' y'] z'] r]; cbn; auto. destruct tail as [|c t]; auto. cbn in Ht.
      rewrite (proj2 (Z.eqb_neq _ _) Ht). reflexivity. }
    rewrite push_last2_snoc. cbn [bind].
    destruct (mpoly_positions r Hf' tail n ps p ([] ++ [(x, y, zero)]) Ht ltac:(lia)) as (n' & Hn' & ->).
    exists n'. split; auto. rewrite E3. reflexivity.
  Qed.

  Lemma mpoly_holes hs : Forall (fun r => flat_pos r /\ r <> []) hs -> forall tail n polys p,
    next_is2 3 tail -> length (rings_coords 1 1 hs ++ tail) < n ->
    exists n', length tail < n' /\
    multi_polygon_loop num zero n (rings_coords 1 1 hs ++ tail) (polys ++ [p]) =
    multi_polygon_loop num zero n' tail (polys ++ [p ++ hs]).
  Proof.
    induction 1 as [|r hs [Hf Hne] H IH]; intros tail n polys p Ht Hn.
    - exists n. cbn in *. rewrite app_nil_r. auto.
    - cbn [rings_coords] in *. rewrite <- app_assoc in *. cbn [Z.add Pos.add Pos.succ] in *.
      destruct (mpoly_ring r 1 Hf Hne (or_intror eq_refl) (rings_coords 1 1 hs ++ tail) n (polys ++ [p])) as (n1 & Hn1 & E).
      + destruct hs as [|r' hs]; auto. apply Forall_inv in H as [_ Hr']. cbn.
        destruct r' as [|[[x' y'] z'] r']; [congruence|]. cbn. lia.
      + exact Hn.
      + intros _ X. destruct polys; discriminate.
      + change (1 + 1)%Z with 2%Z in *. rewrite E. cbn [Z.eqb]. rewrite removelast_last, last_last.
        destruct (IH tail n1 polys (p ++ [r]) Ht Hn1) as (n2 & Hn2 & ->).
        exists n2. rewrite <- app_assoc. auto.
  Qed.

  Definition poly_flat (p : list vec3 * list (list vec3)) : Prop :=
    Forall (fun r => flat_pos r /\ r <> []) (fst p :: snd p).

  Lemma mpoly_polys ps : Forall poly_flat ps -> forall n polys,
    length (polys_coords 0 0 ps) < n ->
    multi_polygon_loop num zero n (polys_coords 0 0 ps) polys = Ret (polys ++ map (fun p => fst p :: snd p) ps).
  Proof.
    induction 1 as [|[r hs] ps Hp H IH]; intros n polys Hn.
    - destruct n; [cbn in Hn; lia|]. cbn. now rewrite app_nil_r.
    - cbn [polys_coords rings_coords] in *. rewrite <- app_assoc in *.
      inversion Hp as [|? ? [Hf Hne] Hh]; subst.
      change (0 + 1 + 1)%Z with 2%Z in *. change (0 + 1)%Z with 1%Z in *.
      assert (next_is2 3 (polys_coords 0 0 ps)) as N0.
      { destruct ps as [|[r' h'] ps]; cbn; auto. inversion H as [|? ? Hp' ?]; subst. inversion Hp' as [|? ? [_ Hne'] ?]; subst.
        cbn in Hne'. destruct r' as [|[[x' y'] z'] r']; [congruence|]. cbn. lia. }
      destruct (mpoly_ring r 0 Hf Hne (or_introl eq_refl) (rings_coords 1 1 hs ++ polys_coords 0 0 ps) n polys) as (n1 & Hn1 & E).
      + destruct hs as [|r' hs']; [exact N0|]. apply Forall_inv in Hh as [_ Hr']. cbn.
        destruct r' as [|[[x' y'] z'] r']; [congruence|]. cbn. lia.
      + exact Hn.
      + discriminate.
      + rewrite E. cbn [Z.eqb].
        destruct (mpoly_holes hs Hh (polys_coords 0 0 ps) n1 polys [r] N0 Hn1) as (n2 & Hn2 & ->).
        rewrite IH by auto. cbn [map fst snd]. rewrite <- app_assoc. reflexivity.
  Qed.

  Lemma build_ok ps : build_polys num (map (fun p => fst p :: snd p) ps) = Ret ps.
  Proof. induction ps as [|[r hs] ps IH]; cbn; auto. now rewrite IH. Qed.

  (* -- geometries -- *)
  Lemma geometry_ok t c sh : geometry num zero stod t c sh ->
    exists l cs rl, c = JArr l /\ walk_list l 0 0 = Some (cs, rl) /\
      finish_object num zero t cs = Ret (Some sh).
  Proof.
    intros [c' ps H|c' ps H|c' ls H|c' p H|c' ps H].
    - destruct H as [js ps Hne H]. exists js. do 2 eexists. split; [reflexivity|]. split; [apply walk_positions; exact H|].
      change (finish_object num zero (s_ "MultiPoint") (ring_coords 0 0 ps)) with
        (let* x := read_multi_point num zero (ring_coords 0 0 ps) in Ret (Some x)).
      unfold read_multi_point. rewrite positions_ok; [|exact (pos2_flat _ _ H)|rewrite ring_coords_length; lia].
      cbn [bind app]. destruct ps; [congruence|reflexivity].
    - destruct H as [js ps Hne H]. exists js. do 2 eexists. split; [reflexivity|]. split; [apply walk_positions; exact H|].
      change (finish_object num zero (s_ "LineString") (ring_coords 0 0 ps)) with
        (let* x := read_line_string num zero (ring_coords 0 0 ps) in Ret (Some x)).
      unfold read_line_string. rewrite positions_ok; [|exact (pos2_flat _ _ H)|rewrite ring_coords_length; lia].
      cbn [bind app]. destruct ps; [congruence|reflexivity].
    - destruct H as [js ls Hne H]. exists js. do 2 eexists. split; [reflexivity|]. split; [apply walk_rings; exact H|].
      change (finish_object num zero (s_ "MultiLineString") (rings_coords 0 0 ls)) with
        (let* x := read_multi_line_string num zero (rings_coords 0 0 ls) in Ret (Some x)).
      unfold read_multi_line_string. rewrite lines_rings by (eauto using arr_rings_flat). cbn [bind app].
      destruct ls; [congruence|reflexivity].
    - destruct H as [j r holes H]. remember (r :: holes) as ls eqn:E.
      destruct H as [js ls Hne H]. exists js. do 2 eexists. split; [reflexivity|].
      split; [apply walk_rings; exact H|].
      change (finish_object num zero (s_ "Polygon") (rings_coords 0 0 ls)) with
        (let* x := read_polygon num zero (rings_coords 0 0 ls) in Ret (Some x)).
      unfold read_polygon. rewrite polygon_rings by (eauto using arr_rings_flat). cbn [bind app].
      rewrite E. reflexivity.
    - destruct H as [js ps Hne H]. exists js. do 2 eexists. split; [reflexivity|]. split; [apply walk_polys; exact H|].
      change (finish_object num zero (s_ "MultiPolygon") (polys_coords 0 0 ps)) with
        (let* x := read_multi_polygon num zero (polys_coords 0 0 ps) in Ret (Some x)).
      unfold read_multi_polygon. rewrite mpoly_polys.
      + cbn [bind app]. rewrite build_ok. reflexivity.
      + clear Hne. induction H as [|j p js ps Hp H IH]; constructor; auto. destruct Hp as [j r holes Hr].
        unfold poly_flat. cbn [fst snd]. inversion Hr; subst. eapply arr_rings_flat; eauto.
      + lia.
  Qed.

  (* -- objects -- *)
  Lemma object_data_S n s ev type coords : object_data (S n) s ev type coords =
        gpure num (json_parse s) ev (fun t s =>
        match t with
        | TObjE =>
            match finish_object num zero type coords with
            | Ret None => (Ret tt, s, ev)
            | Ret (Some x) => (Ret tt, s, ev ++ [x])
            | Err => (Err, s, ev) | Throw => (Throw, s, ev) | UB => (UB, s, ev)
            | Diverge => (Diverge, s, ev)
            end
        | TStr key =>
            if str_eqb key (s_ "type") then
              gpure num (read_string s) ev (fun v s => object_data n s ev v coords)
            else if str_eqb key (s_ "features") then
              gbind num (read_objects n s ev) (fun s ev => object_data n s ev type coords)
            else if str_eqb key (s_ "geometry") then
              gbind num (read_object n s ev) (fun s ev => object_data n s ev type coords)
            else if str_eqb key (s_ "coordinates") then
              gpure num (read_coords n s coords) ev (fun coords s => object_data n s ev type coords)
            else
              match json_skip n s with
              | (Diverge, s) => (Diverge, s, ev)
              | (_, s) => object_data n s ev type coords
              end
        | _ => (Err, s, ev)
        end).
  Proof. reflexivity. Qed.
  Lemma objects_loop_S n s ev : objects_loop (S n) s ev =
        gpure num (json_parse s) ev (fun t s =>
        match t with
        | TObjB => gbind num (object_data n s ev [] []) (fun s ev => objects_loop n s ev)
        | TArrE => (Ret tt, s, ev)
        | _ => (Err, s, ev)
        end).
  Proof. reflexivity. Qed.
  Lemma read_objects_S n s ev : read_objects (S n) s ev = gpure num (read_array_begin s) ev (fun _ s => objects_loop n s ev).
  Proof. reflexivity. Qed.
  Lemma read_object_S n s ev : read_object (S n) s ev = gpure num (read_object_begin s) ev (fun _ s => object_data n s ev [] []).
  Proof. reflexivity. Qed.
  Definition mtokens (p : str * json) : list tok := TStr (fst p) :: tokens (snd p).

  (** [v] is read by geojson_read_object with effect [shs]. *)
  Definition obj_reads (v : json) (shs : list shape) : Prop := forall s m n ev,
    delivers (tokens v) s m -> 2 * length s + 2 <= n -> read_object n s ev = (Ret tt, m, ev ++ shs).

  (** The members from [s] to [s1] change the state of the call. *)
  Definition runs (ms : list (str * json)) (ev : list shape) (ty : str) (cs : list coord)
      (ev' : list shape) (ty' : str) (cs' : list coord) : Prop :=
    forall s s1 n, delivers (flat_map mtokens ms) s s1 -> 2 * length s + 2 <= n ->
    exists n', 2 * length s1 + 2 <= n' /\ object_data n s ev ty cs = object_data n' s1 ev' ty' cs'.

  Lemma runs_nil ev ty cs : runs [] ev ty cs ev ty cs.
  Proof. intros s s1 n D Hn. inversion D; subst. exists n. auto. Qed.
  Lemma runs_app a b ev ty cs ev1 ty1 cs1 ev2 ty2 cs2 : runs a ev ty cs ev1 ty1 cs1 ->
    runs b ev1 ty1 cs1 ev2 ty2 cs2 -> runs (a ++ b) ev ty cs ev2 ty2 cs2.
  Proof.
    intros A B s s2 n D Hn. rewrite flat_map_app in D. apply delivers_app in D as (m & D1 & D2).
    destruct (A _ _ _ D1 Hn) as (n1 & Hn1 & ->). apply (B _ _ _ D2 Hn1).
  Qed.

  Lemma str_eqb_ne a b : a <> b -> str_eqb a b = false.
  Proof. destruct (str_eqb_spec a b); congruence. Qed.

  Lemma runs_foreign p ev ty cs : foreign p -> runs [p] ev ty cs ev ty cs.
  Proof.
    intros (F1 & F2 & F3 & F4) s s1 n D Hn. destruct p as [k v]. cbn [fst] in *.
    cbn [flat_map] in D. rewrite app_nil_r in D. unfold mtokens in D. cbn [fst snd] in D.
    inversion D as [|t0 ts0 s0 s2 s3 J D1]; subst.
    pose proof (json_parse_len _ _ _ J). pose proof (delivers_len _ _ _ D1). destruct n as [|n]; [lia|].
    rewrite object_data_S. rewrite J. cbn [gpure].
    rewrite !str_eqb_ne by auto. rewrite (skip_ok v s2 s1 n D1) by lia.
    exists n. split; [lia|reflexivity].
  Qed.
  Lemma runs_foreigns o ev ty cs : Forall foreign o -> runs o ev ty cs ev ty cs.
  Proof.
    induction 1 as [|p o Hp H IH]; [apply runs_nil|]. apply (runs_app [p] o _ _ _ ev ty cs); auto using runs_foreign.
  Qed.
  Lemma runs_type t ev ty cs : runs [(s_ "type", JStr t)] ev ty cs ev t cs.
  Proof.
    intros s s1 n D Hn. cbn [flat_map] in D. rewrite app_nil_r in D. unfold mtokens in D. cbn [fst snd tokens] in D.
    inversion D as [|t0 ts0 s0 s2 s3 J D1]; subst. inversion D1 as [|t0 ts0 s0 s4 s5 J2 D2]; subst. inversion D2; subst.
    pose proof (json_parse_len _ _ _ J). pose proof (json_parse_len _ _ _ J2). destruct n as [|n]; [lia|].
    rewrite object_data_S. rewrite J. cbn [gpure]. rewrite str_eqb_refl.
    unfold read_string. rewrite J2. cbn [jbind gpure]. exists n. split; [lia|reflexivity].
  Qed.
  Lemma runs_coords l c rl ev ty cs : walk_list l 0 0 = Some (c, rl) ->
    runs [(s_ "coordinates", JArr l)] ev ty cs ev ty (cs ++ c).
  Proof.
    intros W s s1 n D Hn. cbn [flat_map] in D. rewrite app_nil_r in D. unfold mtokens in D. cbn [fst snd] in D.
    inversion D as [|t0 ts0 s0 s2 s3 J D1]; subst.
    pose proof (json_parse_len _ _ _ J). pose proof (delivers_len _ _ _ D1). destruct n as [|n]; [lia|].
    rewrite object_data_S. rewrite J. cbn [gpure].
    change (str_eqb (s_ "coordinates") (s_ "type")) with false.
    change (str_eqb (s_ "coordinates") (s_ "features")) with false.
    change (str_eqb (s_ "coordinates") (s_ "geometry")) with false.
    change (str_eqb (s_ "coordinates") (s_ "coordinates")) with true.
    rewrite (read_coords_ok l c rl s2 s1 cs n W D1) by lia. cbn [gpure]. exists n. split; [lia|reflexivity].
  Qed.
  Lemma runs_geometry g shs ev ty cs : obj_reads g shs -> runs [(s_ "geometry", g)] ev ty cs (ev ++ shs) ty cs.
  Proof.
    intros R s s1 n D Hn. cbn [flat_map] in D. rewrite app_nil_r in D. unfold mtokens in D. cbn [fst snd] in D.
    inversion D as [|t0 ts0 s0 s2 s3 J D1]; subst.
    pose proof (json_parse_len _ _ _ J). pose proof (delivers_len _ _ _ D1). destruct n as [|n]; [lia|].
    rewrite object_data_S. rewrite J. cbn [gpure].
    change (str_eqb (s_ "geometry") (s_ "type")) with false.
    change (str_eqb (s_ "geometry") (s_ "features")) with false.
    change (str_eqb (s_ "geometry") (s_ "geometry")) with true.
    rewrite (R s2 s1 n ev D1) by lia. cbn [gbind]. exists n. split; [lia|reflexivity].
  Qed.

  Lemma objects_ok fs shs : Forall2 obj_reads fs shs -> (forall f, In f fs -> exists ms, f = JObj ms) ->
    forall s m n ev, delivers (flat_map tokens fs ++ [TArrE]) s m -> 2 * length s + 2 <= n ->
    objects_loop n s ev = (Ret tt, m, ev ++ concat shs).
  Proof.
    induction 1 as [|f sh fs shs R H IH]; intros O s m n ev D Hn.
    - cbn in D. inversion D as [|t0 ts0 s0 s2 s3 J D1]; subst. inversion D1; subst. destruct n as [|n]; [lia|].
      rewrite objects_loop_S. rewrite J. cbn [gpure concat]. now rewrite app_nil_r.
    - cbn [flat_map] in D. rewrite <- app_assoc in D. apply delivers_app in D as (s2 & D1 & D2).
      destruct (O f (or_introl eq_refl)) as (ms & ->).
      pose proof (delivers_len _ _ _ D1) as L. pose proof D1 as D1'.
      cbn [tokens] in D1'. inversion D1' as [|t0 ts0 s0 s3 s4 J D3]; subst.
      pose proof (json_parse_len _ _ _ J). destruct n as [|n]; [lia|].
      assert (object_data n s3 ev [] [] = (Ret tt, s2, ev ++ sh)) as E.
      { specialize (R s s2 (S n) ev D1 ltac:(lia)). rewrite read_object_S in R.
        unfold read_object_begin in R. rewrite J in R. cbn [jbind gpure] in R. exact R. }
      rewrite objects_loop_S. rewrite J. cbn [gpure]. rewrite E. cbn [gbind].
      rewrite (IH (fun f Hf => O f (or_intror Hf)) s2 m n (ev ++ sh) D2).
      + cbn [concat]. now rewrite app_assoc.
      + cbn [tokens length] in L. rewrite app_length in L. cbn [length] in L. lia.
  Qed.

  Lemma runs_features fs shs ev ty cs : Forall2 obj_reads fs shs -> (forall f, In f fs -> exists ms, f = JObj ms) ->
    runs [(s_ "features", JArr fs)] ev ty cs (ev ++ concat shs) ty cs.
  Proof.
    intros R O s s1 n D Hn. cbn [flat_map] in D. rewrite app_nil_r in D. unfold mtokens in D. cbn [fst snd] in D.
    inversion D as [|t0 ts0 s0 s2 s3 J D1]; subst.
    pose proof (json_parse_len _ _ _ J). pose proof (delivers_len _ _ _ D1) as L.
    cbn [tokens] in D1, L. inversion D1 as [|t0 ts0 s0 s4 s5 J2 D2]; subst.
    pose proof (json_parse_len _ _ _ J2). destruct n as [|n]; [lia|].
    rewrite object_data_S. rewrite J. cbn [gpure].
    change (str_eqb (s_ "features") (s_ "type")) with false.
    change (str_eqb (s_ "features") (s_ "features")) with true.
    destruct n as [|n]; [lia|]. 
    assert (read_objects (S n) s2 ev = (Ret tt, s1, ev ++ concat shs)) as ->.
    { rewrite read_objects_S. unfold read_array_begin. rewrite J2. cbn [jbind gpure].
      apply (objects_ok fs shs R O s4 s1 n ev D2). lia. }
    cbn [gbind]. exists (S n). split; [cbn [length] in L; lia|reflexivity].
  Qed.

  (** One object, given what its members do. *)
  Lemma object_reads ms shs ev' ty cs sho : (forall ev, runs ms ev [] [] (ev ++ ev') ty cs) ->
    finish_object num zero ty cs = Ret sho -> shs = ev' ++ (match sho with Some x => [x] | None => [] end) ->
    obj_reads (JObj ms) shs.
  Proof.
    intros R F -> s m n ev D Hn. cbn [tokens] in D. inversion D as [|t0 ts0 s0 s2 s3 J D1]; subst.
    apply delivers_app in D1 as (s4 & D1 & D2). inversion D2 as [|t0 ts0 s0 s5 s6 J2 D3]; subst. inversion D3; subst.
    pose proof (json_parse_len _ _ _ J). destruct n as [|n]; [lia|].
    rewrite read_object_S. unfold read_object_begin. rewrite J. cbn [jbind gpure].
    destruct (R ev _ _ n D1 ltac:(lia)) as (n' & Hn' & ->).
    destruct n' as [|n']; [lia|]. rewrite object_data_S. rewrite J2. cbn [gpure]. rewrite F.
    destruct sho; [|rewrite app_nil_r]; rewrite ?app_assoc; reflexivity.
  Qed.

  Lemma perm_split {A} (a b : A) o ms : Permutation ms (a :: b :: o) ->
    exists o1 o2 o3, (ms = o1 ++ [a] ++ o2 ++ [b] ++ o3 \/ ms = o1 ++ [b] ++ o2 ++ [a] ++ o3) /\ forall x, In x (o1 ++ o2 ++ o3) -> In x o.
  Proof.
    intro P. destruct (in_split a ms) as (l1 & l2 & ->).
    { eapply Permutation_in; [symmetry; exact P|now left]. }
    apply Permutation_sym, Permutation_cons_app_inv in P.
    assert (In b (l1 ++ l2)) as Hb by (eapply Permutation_in; [exact P|now left]).
    apply in_app_or in Hb as [Hb|Hb]; destruct (in_split b _ Hb) as (u & v & ->).
    - exists u, v, l2. split; [right; cbn; now rewrite <- app_assoc|].
      rewrite <- app_assoc in P. cbn [app] in P. apply Permutation_cons_app_inv in P.
      intros x Hx. eapply Permutation_in; [symmetry; exact P|]. exact Hx.
    - exists l1, u, v. split; [left; reflexivity|].
      rewrite app_assoc in P. apply Permutation_cons_app_inv in P. rewrite <- app_assoc in P.
      intros x Hx. eapply Permutation_in; [symmetry; exact P|]. exact Hx.
  Qed.

  (** A "type" member, one member with an effect, and foreign members, in any order. *)
  Lemma runs_perm ms t b o ev' cs' : Permutation ms ((s_ "type", JStr t) :: b :: o) -> Forall foreign o ->
    (forall ev ty, runs [b] ev ty [] (ev ++ ev') ty cs') ->
    forall ev, runs ms ev [] [] (ev ++ ev') t cs'.
  Proof.
    intros P F B ev. destruct (perm_split _ _ _ _ P) as (o1 & o2 & o3 & E & I).
    assert (Forall foreign o1 /\ Forall foreign o2 /\ Forall foreign o3) as (F1 & F2 & F3).
    { rewrite Forall_forall in F. repeat split; apply Forall_forall; intros x Hx; apply F, I; rewrite !in_app_iff; auto. }
    destruct E as [-> | ->].
    - eapply runs_app; [now apply runs_foreigns|]. eapply runs_app; [apply runs_type|].
      eapply runs_app; [now apply runs_foreigns|]. eapply runs_app; [apply B|]. now apply runs_foreigns.
    - eapply runs_app; [now apply runs_foreigns|]. eapply runs_app; [apply B|].
      eapply runs_app; [now apply runs_foreigns|]. eapply runs_app; [apply runs_type|]. now apply runs_foreigns.
  Qed.

  Scheme geo_doc_ind2 := Minimality for geo_doc Sort Prop
    with geo_docs_ind2 := Minimality for geo_docs Sort Prop.

  Lemma doc_reads v shs : geo_doc num zero stod v shs -> obj_reads v shs /\ exists ms, v = JObj ms.
  Proof.
    revert v shs. apply (geo_doc_ind2 num zero stod
      (fun v shs => obj_reads v shs /\ exists ms, v = JObj ms)
      (fun fs shs => exists shss, shs = concat shss /\ Forall2 obj_reads fs shss /\ forall f, In f fs -> exists ms, f = JObj ms)).
    - intros ms t c o sh P F G. destruct (geometry_ok _ _ _ G) as (l & cs & rl & -> & W & Fin).
      split; [|eauto]. eapply (object_reads ms _ [] t cs); [|exact Fin|reflexivity].
      eapply runs_perm; eauto. intros ev ty. rewrite app_nil_r. apply (runs_coords l cs rl ev ty [] W).
    - intros ms g o shs P F _ [R _]. split; [|eauto].
      eapply (object_reads ms _ shs (s_ "Feature") [] None); [|reflexivity|now rewrite app_nil_r].
      eapply runs_perm; eauto. intros ev ty. now apply runs_geometry.
    - intros ms fs o shs P F _ (shss & -> & R & O). split; [|eauto].
      eapply (object_reads ms _ (concat shss) (s_ "FeatureCollection") [] None); [|reflexivity|now rewrite app_nil_r].
      eapply runs_perm; eauto. intros ev ty. now apply runs_features.
    - exists []. repeat split; auto. intros f [].
    - intros v vs sh shs _ [R O] _ (shss & -> & Rs & Os). exists (sh :: shss). repeat split; auto.
      intros f [<-|Hf]; auto.
  Qed.

  Lemma geojson_ok v shs s m : geo_doc num zero stod v shs -> delivers (tokens v) s m ->
    geojson_read num zero stod s = (Ret tt, m, shs).
  Proof. intros G D. unfold geojson_read. apply (proj1 (doc_reads v shs G) s m _ [] D). lia. Qed.

  Lemma geo_doc_obj v shs : geo_doc num zero stod v shs -> exists ms, v = JObj ms.
  Proof. intro H. apply (doc_reads v shs H). Qed.

  Lemma geojson_text_ok v shs txt w1 w2 : geo_doc num zero stod v shs -> ws w1 -> ws w2 -> value_text v txt ->
    exists m, geojson_read num zero stod (w1 ++ txt ++ w2) = (Ret tt, m, shs).
  Proof.
    intros G H1 H2 V. destruct (geo_doc_obj v shs G) as (ms & ->).
    destruct (document_delivers _ txt w1 w2 H1 H2 V) as (m & D & _); [discriminate|].
    exists m. eapply geojson_ok; eauto.
  Qed.

  (* -- other documents -- *)
  (** What an object with "type" [t] and "coordinates" [JArr l] does. *)
  Lemma geometry_run ms t l cs rl o s m : Permutation ms ((s_ "type", JStr t) :: (s_ "coordinates", JArr l) :: o) ->
    Forall foreign o -> walk_list l 0 0 = Some (cs, rl) -> delivers (tokens (JObj ms)) s m ->
    geojson_read num zero stod s =
      match finish_object num zero t cs with
      | Ret None => (Ret tt, m, []) | Ret (Some x) => (Ret tt, m, [x])
      | Err => (Err, m, []) | Throw => (Throw, m, []) | UB => (UB, m, []) | Diverge => (Diverge, m, [])
      end.
  Proof.
    intros P F W D. unfold geojson_read. set (n := 4 * length s + 4).
    assert (2 * length s + 2 <= n) as Hn by (unfold n; lia). clearbody n.
    assert (forall ev, runs ms ev [] [] (ev ++ []) t cs) as R.
    { eapply runs_perm; eauto. intros ev ty. rewrite app_nil_r. apply (runs_coords l cs rl ev ty [] W). }
    cbn [tokens] in D. inversion D as [|t0 ts0 s0 s2 s3 J D1]; subst.
    apply delivers_app in D1 as (s4 & D1 & D2). inversion D2 as [|t0 ts0 s0 s5 s6 J2 D3]; subst. inversion D3; subst.
    pose proof (json_parse_len _ _ _ J). destruct n as [|n]; [lia|].
    rewrite read_object_S. unfold read_object_begin. rewrite J. cbn [jbind gpure].
    destruct (R [] _ _ n D1 ltac:(lia)) as (n' & Hn' & ->).
    destruct n' as [|n']; [lia|]. rewrite object_data_S. rewrite J2. cbn [gpure app].
    destruct (finish_object num zero t cs) as [[x|]| | | |]; reflexivity.
  Qed.

  Lemma text_obj ms txt w1 w2 : ws w1 -> ws w2 -> value_text (JObj ms) txt ->
    exists m, delivers (tokens (JObj ms)) (w1 ++ txt ++ w2) m.
  Proof.
    intros H1 H2 V. destruct (document_delivers _ txt w1 w2 H1 H2 V) as (m & D & _); [discriminate|]. eauto.
  Qed.

  Lemma point2_ub ms a b x y o txt w1 w2 : ws w1 -> ws w2 ->
    stod a = Some x -> stod b = Some y ->
    Permutation ms ((s_ "type", JStr (s_ "Point")) :: (s_ "coordinates", JArr [JNum a; JNum b]) :: o) ->
    Forall foreign o -> value_text (JObj ms) txt ->
    fst (fst (geojson_read num zero stod (w1 ++ txt ++ w2))) = UB.
  Proof.
    intros H1 H2 A B P F V. destruct (text_obj ms txt w1 w2 H1 H2 V) as (m & D).
    assert (walk_list [JNum a; JNum b] 0 0 = Some ([(x, 0%Z); (y, 0%Z)], 0%Z)) as W
      by (cbn; now rewrite A, B).
    erewrite geometry_run; eauto. reflexivity.
  Qed.
  Lemma point3_z ms a b c x y z o txt w1 w2 : ws w1 -> ws w2 ->
    stod a = Some x -> stod b = Some y -> stod c = Some z ->
    Permutation ms ((s_ "type", JStr (s_ "Point")) :: (s_ "coordinates", JArr [JNum a; JNum b; JNum c]) :: o) ->
    Forall foreign o -> value_text (JObj ms) txt ->
    exists m, geojson_read num zero stod (w1 ++ txt ++ w2) = (Ret tt, m, [Points [(x, y, zero)]]).
  Proof.
    intros H1 H2 A B C P F V. destruct (text_obj ms txt w1 w2 H1 H2 V) as (m & D).
    assert (walk_list [JNum a; JNum b; JNum c] 0 0 = Some ([(x, 0%Z); (y, 0%Z); (z, 0%Z)], 0%Z)) as W
      by (cbn; now rewrite A, B, C).
    exists m. erewrite geometry_run; eauto. reflexivity.
  Qed.

  (** Coordinate lists of lists of two- or three-dimensional positions. *)
  Notation pos23' := (pos23 num stod).
  Fixpoint mixed (level rl : Z) (ps : list (num * num * option num)) : list coord :=
    match ps with
    | [] => []
    | (x, y, z) :: r => (x, rl) :: (y, level + 1)%Z ::
        (match z with Some z => [(z, level + 1)%Z] | None => [] end) ++ mixed level level r
    end.
  Lemma walk_mixed js ps : Forall2 pos23' js ps -> forall level rl,
    exists rl', walk_list js level rl = Some (mixed level rl ps, rl').
  Proof.
    induction 1 as [|j p js ps Hp H IH]; intros level rl; cbn [walk_list mixed]; eauto.
    destruct Hp as [a b x y Ha Hb|a b c x y z Ha Hb Hc]; rewrite walk_arr; cbn [walk_list walk]; rewrite Ha, Hb, ?Hc;
      destruct (IH level level) as (rl' & ->); exists rl'; reflexivity.
  Qed.

  Lemma positions_mixed ps : Exists (has_z num) ps -> forall n acc v,
    positions_loop num zero n (mixed 0 0 ps) acc <> Ret v.
  Proof.
    intros E. induction ps as [|[[x y] z] ps IH]; [inversion E|]. intros n acc v. destruct n as [|n]; [discriminate|].
    cbn [mixed positions_loop snd fst]. cbn [Z.eqb negb orb].
    destruct z as [z|].
    - cbn [app]. destruct n as [|n]; [discriminate|]. cbn [positions_loop]. 
      destruct (mixed 0 0 ps); cbn; discriminate.
    - cbn [app]. apply IH. inversion E as [? ? X|? ? X]; subst; auto. destruct X; reflexivity.
  Qed.

  Lemma line_3d ms ty cs o ps txt w1 w2 : ws w1 -> ws w2 -> ty = s_ "LineString" \/ ty = s_ "MultiPoint" ->
    Permutation ms ((s_ "type", JStr ty) :: (s_ "coordinates", JArr cs) :: o) ->
    Forall foreign o -> Forall2 pos23' cs ps -> Exists (has_z num) ps -> value_text (JObj ms) txt ->
    fst (fst (geojson_read num zero stod (w1 ++ txt ++ w2))) <> Ret tt.
  Proof.
    intros H1 H2 T P F C E V. destruct (text_obj ms txt w1 w2 H1 H2 V) as (m & D).
    destruct (walk_mixed cs ps C 0 0) as (rl' & W). rewrite (geometry_run ms ty cs _ _ o _ m P F W D).
    assert (forall x, finish_object num zero ty (mixed 0 0 ps) <> Ret x) as X.
    { intros x. destruct T as [-> | ->].
      - change (finish_object num zero (s_ "LineString") (mixed 0 0 ps)) with
          (let* x := read_line_string num zero (mixed 0 0 ps) in Ret (Some x)).
        unfold read_line_string. destruct (positions_loop _ _ _ _ _) eqn:Q; try discriminate.
        exfalso; eapply positions_mixed; eauto.
      - change (finish_object num zero (s_ "MultiPoint") (mixed 0 0 ps)) with
          (let* x := read_multi_point num zero (mixed 0 0 ps) in Ret (Some x)).
        unfold read_multi_point. destruct (positions_loop _ _ _ _ _) eqn:Q; try discriminate.
        exfalso; eapply positions_mixed; eauto. }
    destruct (finish_object num zero ty (mixed 0 0 ps)) as [y| | | |]; try discriminate. exfalso; now apply (X y).
  Qed.

  (** rings and multi-lines *)
  Fixpoint mixed2 (level rl : Z) (rs : list (list (num * num * option num))) : list coord :=
    match rs with [] => [] | r :: rest => mixed (level + 1) rl r ++ mixed2 level level rest end.
  Lemma walk_mixed2 js rs : Forall2 (arr pos23') js rs -> forall level rl,
    exists rl', walk_list js level rl = Some (mixed2 level rl rs, rl').
  Proof.
    induction 1 as [|j r js rs Hr H IH]; intros level rl; cbn [walk_list mixed2]; eauto.
    destruct Hr as [js' l Hne Hr]. rewrite walk_arr. destruct (walk_mixed js' l Hr (level + 1) rl) as (r1 & ->).
    destruct (IH level level) as (rl' & ->). eauto.
  Qed.

  (** In a mixed list the levels are (below L), L [, L]; a third L stops every loop. *)
  Inductive bad3 (L : Z) : list coord -> Prop :=
  | b3_here a b c r : snd a <> L -> snd b = L -> snd c = L -> (match r with [] => True | d :: _ => snd d <> L end) ->
      bad3 L (a :: b :: c :: r)
  | b3_next a b r : snd a <> L -> snd b = L -> bad3 L r -> bad3 L (a :: b :: r).

  Definition headnot (L : Z) (l : list coord) : Prop := match l with [] => True | d :: _ => snd d <> L end.
  Lemma mixed_bad L level rl ps tail : (L = level + 1)%Z -> (rl <= level)%Z ->
    (Exists (has_z num) ps /\ headnot L tail \/ bad3 L tail) -> bad3 L (mixed level rl ps ++ tail).
  Proof.
    intros -> . revert rl. induction ps as [|[[x y] z] ps IH]; intros rl Hrl [[E T]|B]; cbn [mixed app].
    - inversion E.
    - exact B.
    - destruct z as [z|]; cbn [app].
      + apply b3_here; cbn [snd]; [lia|reflexivity|reflexivity|]. destruct ps as [|[[x' y'] z'] ps]; cbn; [exact T|lia].
      + apply b3_next; cbn [snd]; [lia|reflexivity|]. apply IH; [lia|]. left; split; auto.
        inversion E as [? ? X|? ? X]; subst; auto. destruct X; reflexivity.
    - destruct z as [z|]; cbn [app].
      + apply b3_here; cbn [snd]; [lia|reflexivity|reflexivity|].
        destruct ps as [|[[x' y'] z'] ps]; cbn; [|lia]. destruct B; cbn; auto.
      + apply b3_next; cbn [snd]; [lia|reflexivity|]. apply IH; [lia|]. auto.
  Qed.
  Lemma mixed2_bad L level rl rs tail : (L = level + 2)%Z -> (rl <= level)%Z -> Forall (fun r => r <> []) rs ->
    (Exists (Exists (has_z num)) rs /\ headnot L tail \/ bad3 L tail) -> bad3 L (mixed2 level rl rs ++ tail).
  Proof.
    intros EL. revert rl. induction rs as [|r rs IH]; intros rl Hrl NE [[E T]|B]; cbn [mixed2 app].
    - inversion E.
    - exact B.
    - rewrite <- app_assoc. inversion NE as [|? ? Hr NE']; subst. apply mixed_bad; [lia|lia|].
      inversion E as [? ? X|? ? X]; subst.
      + left. split; auto. destruct rs as [|r' rs]; [exact T|]. inversion NE' as [|? ? Hr' _]; subst. cbn.
        destruct r' as [|[[x' y'] z'] r']; [congruence|]. cbn. lia.
      + right. apply IH; auto; lia.
    - rewrite <- app_assoc. inversion NE as [|? ? Hr NE']; subst. apply mixed_bad; [lia|lia|].
      right. apply IH; auto; lia.
  Qed.

  Lemma polygon_bad l : bad3 2 l -> forall n rings v, polygon_loop num zero n l rings <> Ret v.
  Proof.
    induction 1 as [a b c r Ha Hb Hc Hd|a b r Ha Hb H IH]; intros n rings v; destruct n as [|n]; try discriminate;
      cbn [polygon_loop].
    - destruct (negb _ || _); [discriminate|]. destruct (push_last _ _ _) as [rs| | | |]; try discriminate.
      cbn [bind]. destruct n as [|n]; [discriminate|]. cbn [polygon_loop].
      destruct r as [|d r]; [discriminate|]. rewrite (proj2 (Z.eqb_neq _ _) Hd). discriminate.
    - destruct (negb _ || _); [discriminate|]. destruct (push_last _ _ _) as [rs| | | |]; try discriminate. apply IH.
  Qed.
  Lemma lines_bad l : bad3 2 l -> forall n rings v, lines_loop num zero n l rings <> Ret v.
  Proof.
    induction 1 as [a b c r Ha Hb Hc Hd|a b r Ha Hb H IH]; intros n rings v; destruct n as [|n]; try discriminate;
      cbn [lines_loop].
    - destruct (negb _ || _); [discriminate|]. destruct (push_last _ _ _) as [rs| | | |]; try discriminate.
      cbn [bind]. destruct n as [|n]; [discriminate|]. cbn [lines_loop].
      destruct r as [|d r]; [discriminate|]. rewrite (proj2 (Z.eqb_neq _ _) Hd). discriminate.
    - destruct (negb _ || _); [discriminate|]. destruct (push_last _ _ _) as [rs| | | |]; try discriminate. apply IH.
  Qed.
  Lemma mpoly_bad l : bad3 3 l -> forall n rings v, multi_polygon_loop num zero n l rings <> Ret v.
  Proof.
    induction 1 as [a b c r Ha Hb Hc Hd|a b r Ha Hb H IH]; intros n rings v; destruct n as [|n]; try discriminate;
      cbn [multi_polygon_loop].
    - destruct (if (snd a =? 0)%Z then _ else _) as [rs| | | |]; try discriminate. cbn [bind].
      destruct (negb _ || _); [discriminate|]. destruct (push_last2 _ _ _) as [rs'| | | |]; try discriminate.
      cbn [bind]. destruct n as [|n]; [discriminate|]. cbn [multi_polygon_loop].
      destruct (if (snd c =? 0)%Z then _ else _) as [rs2| | | |]; try discriminate. cbn [bind].
      destruct r as [|d r]; [discriminate|]. rewrite (proj2 (Z.eqb_neq _ _) Hd). discriminate.
    - destruct (if (snd a =? 0)%Z then _ else _) as [rs| | | |]; try discriminate. cbn [bind].
      destruct (negb _ || _); [discriminate|]. destruct (push_last2 _ _ _) as [rs'| | | |]; try discriminate. apply IH.
  Qed.

  Lemma rings_nonempty js (rs : list (list (num * num * option num))) : Forall2 (arr pos23') js rs -> Forall (fun r => r <> []) rs.
  Proof. induction 1 as [|j r js rs Hr H IH]; constructor; auto. now destruct Hr. Qed.

  Lemma rings_3d ms ty cs o rs txt w1 w2 : ws w1 -> ws w2 -> ty = s_ "MultiLineString" \/ ty = s_ "Polygon" ->
    Permutation ms ((s_ "type", JStr ty) :: (s_ "coordinates", JArr cs) :: o) ->
    Forall foreign o -> Forall2 (arr pos23') cs rs -> Exists (Exists (has_z num)) rs -> value_text (JObj ms) txt ->
    fst (fst (geojson_read num zero stod (w1 ++ txt ++ w2))) <> Ret tt.
  Proof.
    intros H1 H2 T P F C E V. destruct (text_obj ms txt w1 w2 H1 H2 V) as (m & D).
    destruct (walk_mixed2 cs rs C 0 0) as (rl' & W). rewrite (geometry_run ms ty cs _ _ o _ m P F W D).
    assert (bad3 2 (mixed2 0 0 rs)) as B.
    { rewrite <- (app_nil_r (mixed2 0 0 rs)). apply mixed2_bad; [lia|lia|eapply rings_nonempty; eauto|]. left. split; cbn; auto. }
    assert (forall x, finish_object num zero ty (mixed2 0 0 rs) <> Ret x) as X.
    { intros x. destruct T as [-> | ->].
      - change (finish_object num zero (s_ "MultiLineString") (mixed2 0 0 rs)) with
          (let* x := read_multi_line_string num zero (mixed2 0 0 rs) in Ret (Some x)).
        unfold read_multi_line_string. destruct (lines_loop _ _ _ _ _) eqn:Q; try discriminate.
        exfalso; eapply lines_bad; eauto.
      - change (finish_object num zero (s_ "Polygon") (mixed2 0 0 rs)) with
          (let* x := read_polygon num zero (mixed2 0 0 rs) in Ret (Some x)).
        unfold read_polygon. destruct (polygon_loop _ _ _ _ _) eqn:Q; try discriminate.
        exfalso; eapply polygon_bad; eauto. }
    destruct (finish_object num zero ty (mixed2 0 0 rs)) as [y| | | |]; try discriminate. exfalso; now apply (X y).
  Qed.

  Fixpoint mixed3 (level rl : Z) (rs : list (list (list (num * num * option num)))) : list coord :=
    match rs with [] => [] | r :: rest => mixed2 (level + 1) rl r ++ mixed3 level level rest end.
  Lemma walk_mixed3 js rs : Forall2 (arr (arr pos23')) js rs -> forall level rl,
    exists rl', walk_list js level rl = Some (mixed3 level rl rs, rl').
  Proof.
    induction 1 as [|j r js rs Hr H IH]; intros level rl; cbn [walk_list mixed3]; eauto.
    destruct Hr as [js' l Hne Hr]. rewrite walk_arr. destruct (walk_mixed2 js' l Hr (level + 1) rl) as (r1 & ->).
    destruct (IH level level) as (rl' & ->). eauto.
  Qed.
  Lemma mixed3_bad L level rl rs : (L = level + 3)%Z -> (rl <= level)%Z ->
    Forall (fun r => r <> [] /\ Forall (fun r => r <> []) r) rs ->
    Exists (Exists (Exists (has_z num))) rs -> bad3 L (mixed3 level rl rs).
  Proof.
    intros EL. revert rl. induction rs as [|r rs IH]; intros rl Hrl NE E; cbn [mixed3]; [inversion E|].
    inversion NE as [|? ? [Hr Hr'] NE']; subst. apply mixed2_bad; [lia|lia|exact Hr'|].
    inversion E as [? ? X|? ? X]; subst.
    - left. split; auto. destruct rs as [|[|[|[[x' y'] z'] r''] r'] rs]; cbn; auto;
        inversion NE' as [|? ? [A B] _]; subst; [congruence|inversion B; congruence|lia].
    - right. apply IH; auto; lia.
  Qed.
  Lemma mpoly_3d ms cs o rs txt w1 w2 : ws w1 -> ws w2 ->
    Permutation ms ((s_ "type", JStr (s_ "MultiPolygon")) :: (s_ "coordinates", JArr cs) :: o) ->
    Forall foreign o -> Forall2 (arr (arr pos23')) cs rs -> Exists (Exists (Exists (has_z num))) rs -> value_text (JObj ms) txt ->
    fst (fst (geojson_read num zero stod (w1 ++ txt ++ w2))) <> Ret tt.
  Proof.
    intros H1 H2 P F C E V. destruct (text_obj ms txt w1 w2 H1 H2 V) as (m & D).
    destruct (walk_mixed3 cs rs C 0 0) as (rl' & W). rewrite (geometry_run ms _ cs _ _ o _ m P F W D).
    assert (bad3 3 (mixed3 0 0 rs)) as B.
    { apply mixed3_bad; [lia|lia| |exact E]. clear -C. induction C as [|j r js rs Hr H IH]; constructor; auto.
      destruct Hr as [js' l Hne Hr]. split; auto. eapply rings_nonempty; eauto. }
    assert (forall x, finish_object num zero (s_ "MultiPolygon") (mixed3 0 0 rs) <> Ret x) as X.
    { intros x. change (finish_object num zero (s_ "MultiPolygon") (mixed3 0 0 rs)) with
          (let* x := read_multi_polygon num zero (mixed3 0 0 rs) in Ret (Some x)).
        unfold read_multi_polygon. destruct (multi_polygon_loop _ _ _ _ _) eqn:Q; try discriminate.
        exfalso; eapply mpoly_bad; eauto. }
    destruct (finish_object num zero _ (mixed3 0 0 rs)) as [y| | | |]; try discriminate. exfalso; now apply (X y).
  Qed.

  (** A polygon whose outer ring is empty makes the reader use the last element of an empty
      vector. *)
  Lemma mpoly_ub ms a b x y o txt w1 w2 : ws w1 -> ws w2 -> stod a = Some x -> stod b = Some y ->
    Permutation ms ((s_ "type", JStr (s_ "MultiPolygon")) ::
      (s_ "coordinates", JArr [JArr [JArr []; JArr [JArr [JNum a; JNum b]]]]) :: o) ->
    Forall foreign o -> value_text (JObj ms) txt ->
    fst (fst (geojson_read num zero stod (w1 ++ txt ++ w2))) = UB.
  Proof.
    intros H1 H2 A B P F V. destruct (text_obj ms txt w1 w2 H1 H2 V) as (m & D).
    eassert (walk_list [JArr [JArr []; JArr [JArr [JNum a; JNum b]]]] 0 0 = Some (_, _)) as W
      by (cbn; rewrite A, B; reflexivity).
    rewrite (geometry_run ms _ _ _ _ o _ m P F W D). reflexivity.
  Qed.

  (** GeometryCollection: every member but "type" is foreign to the reader. *)
  Lemma collection_empty ms v o txt w1 w2 : ws w1 -> ws w2 ->
    Permutation ms ((s_ "type", JStr (s_ "GeometryCollection")) :: (s_ "geometries", v) :: o) ->
    Forall foreign o -> value_text (JObj ms) txt ->
    exists m, geojson_read num zero stod (w1 ++ txt ++ w2) = (Ret tt, m, []).
  Proof.
    intros H1 H2 P F V. destruct (text_obj ms txt w1 w2 H1 H2 V) as (m & D). exists m. unfold geojson_read.
    assert (obj_reads (JObj ms) []) as R; [|apply (R _ m _ [] D); lia].
    eapply (object_reads ms _ [] (s_ "GeometryCollection") [] None); [|reflexivity|reflexivity].
    eapply runs_perm; eauto. intros ev ty. rewrite app_nil_r. apply runs_foreign. repeat split; discriminate.
  Qed.

  (* -- loaders -- *)
  Lemma points_all shs : points_xy num shs = map (fun p => (fst (fst p), snd (fst p))) (all_points num shs).
  Proof.
    induction shs as [|[ps|ls|ps] shs IH]; cbn; auto. fold (all_points num shs). now rewrite map_app, IH.
  Qed.
  Notation xy := (xy num). Notation starts := (starts num).
  Lemma lines_cb_all ls pts index : lines_cb num ls pts index =
    (pts ++ map xy (concat ls), index ++ filter (fun k => 0 <? k) (starts (length pts) ls)).
  Proof.
    revert pts index; induction ls as [|l ls IH]; intros pts index; cbn [lines_cb concat map starts filter].
    - now rewrite !app_nil_r.
    - rewrite IH. fold xy. change (fun p : vec3 => (fst (fst p), snd (fst p))) with xy. rewrite map_app, app_assoc. f_equal. rewrite app_length, map_length.
      destruct (0 <? length pts); [|reflexivity]. now rewrite <- app_assoc.
  Qed.
  Lemma starts_app off a b : starts off (a ++ b) = starts off a ++ starts (off + length (concat a)) b.
  Proof.
    revert off; induction a as [|l a IH]; intro off; cbn; [now rewrite Nat.add_0_r|].
    rewrite IH, app_length, Nat.add_assoc. reflexivity.
  Qed.
  Lemma lines_all shs : forall pts index, lines_xy num shs pts index =
    (pts ++ map xy (concat (all_lines num shs)), index ++ filter (fun k => 0 <? k) (starts (length pts) (all_lines num shs))).
  Proof.
    induction shs as [|[ps|ls|ps] shs IH]; intros pts index; cbn [lines_xy all_lines flat_map app]; try apply IH.
    - cbn. now rewrite !app_nil_r.
    - fold (all_lines num shs). rewrite lines_cb_all, IH, starts_app, concat_app, map_app, filter_app, app_length, map_length.
      now rewrite <- !app_assoc.
  Qed.
End P.
