(** C96, continued: the ways in which the file functions fall short, joining, listing, sizes,
    removing and reading. *)
From Verif Require Import Base Str_Model Str_Spec Str_Props File_Model File_Spec File_Props.

Local Open Scope list_scope.

(* ---------------- examples ---------------- *)
Definition demo_tree : node :=
  Dir [(s_ "home", Dir [(s_ "a", File (s_ "12345")); (s_ ".rc", File (s_ "678")); (s_ "sub", Dir [(s_ "b", File (s_ "90"))])])].
Lemma demo_home : view demo_tree [s_ "home"] = ADir.
Proof. reflexivity. Qed.
Lemma name_ok n : n <> [] -> n <> s_ "." -> n <> s_ ".." -> ~ In "/"%char n -> is_name n.
Proof. unfold is_name. auto. Qed.
Ltac solve_name := apply name_ok; [discriminate|discriminate|discriminate|intros I; cbn in I; intuition discriminate].
Lemma one_slash : slashes (s_ "/").
Proof. split; [discriminate|constructor; [reflexivity|constructor]]. Qed.
Lemma two_slashes : slashes (s_ "//").
Proof. split; [discriminate|constructor; [reflexivity|constructor; [reflexivity|constructor]]]. Qed.
Lemma demo_names : names [s_ "home"] (s_ "./sub//c/d") [s_ "home"; s_ "sub"; s_ "c"; s_ "d"].
Proof.
  left. exists [s_ "sub"; s_ "c"; s_ "d"]. split; [|reflexivity].
  apply (spells_dot (s_ "/") (s_ "sub//c/d")); [apply one_slash|].
  apply (spells_more (s_ "sub") (s_ "//") (s_ "c/d")); [solve_name|apply two_slashes|].
  apply (spells_more (s_ "c") (s_ "/") (s_ "d")); [solve_name|apply one_slash|].
  apply spells_name. solve_name.
Qed.
Example C96_mkdir_p_example :
  exists t', alone [s_ "home"] demo_tree (mkdir_p (s_ "./sub//c/d")) = (Ret tt, t') /\
    view t' [s_ "home"; s_ "sub"; s_ "c"; s_ "d"] = ADir /\ view t' [s_ "home"; s_ "a"] = AFile (s_ "12345").
Proof.
  destruct (C96_mkdir_p [s_ "home"] demo_tree (s_ "./sub//c/d") _ demo_home demo_names) as [H _].
  destruct H as (t' & E & V).
  { intros x s (r & E) F. destruct x as [|n0 [|n1 [|n2 [|n3 x]]]]; try discriminate F.
    - injection E as <- _. discriminate F.
    - injection E as <- <- _. discriminate F.
    - injection E as <- <- <- _. discriminate F.
    - injection E as <- <- <- <- E. symmetry in E. apply app_eq_nil in E. destruct E as [-> _]. discriminate F. }
  exists t'. split; [exact E|]. split.
  - apply V. exists []. reflexivity.
  - rewrite (proj2 (V _)); [reflexivity|]. intros (r & E'). discriminate E'.
Qed.
(** A file on the way is an error. *)
Example C96_mkdir_p_file_example :
  alone [s_ "home"] demo_tree (mkdir_p (s_ "/home/a/x")) = (Throw, demo_tree).
Proof. reflexivity. Qed.

(* ---------------- a slash at the end ---------------- *)
Lemma each_slash_app {A} a : forall B b (k : prog A),
  each_slash B (a ++ b) k = each_slash B a (each_slash (B ++ a) b k).
Proof.
  induction a as [|c a IH]; intros B b k; [rewrite app_nil_r; reflexivity|].
  cbn [app each_slash]. rewrite IH, <- app_assoc. reflexivity.
Qed.
Lemma stat_slash t cwd p : p <> [] -> sys_stat t cwd p = Missing -> sys_stat t cwd (p ++ s_ "/") = Missing.
Proof.
  rewrite !stat_resolve. intro N. unfold resolve. destruct p as [|c p]; [contradiction|].
  change ((c :: p) ++ s_ "/") with ((c :: p) ++ "/"%char :: []).
  rewrite components_slash, walk_app.
  change (start cwd ((c :: p) ++ ["/"%char])) with (start cwd (c :: p)).
  destruct ((c :: p) ++ ["/"%char]) eqn:Q; [discriminate Q|]. clear Q.
  destruct (walk t (start cwd (c :: p)) (components (c :: p))) as [q| |]; try (intro H; exact H).
  cbn [stat_at]. destruct (view t q) eqn:V; try discriminate. intros _. unfold view in V.
  cbn [components walk]. destruct (lookup t q) as [[]|]; try discriminate V. reflexivity.
Qed.
Lemma mkdir_exists t cwd p : is_directory_at t cwd p -> sys_mkdir t cwd (p ++ s_ "/") = None.
Proof.
  intros (q & R & V). unfold sys_mkdir.
  destruct (drop_empty (rev (components (p ++ s_ "/")))) as [|n b] eqn:D; [reflexivity|].
  destruct (drop_empty_rev _ _ _ D) as (k & C & N).
  unfold resolve in R. destruct p as [|c p]; [discriminate R|].
  change (start cwd ((c :: p) ++ s_ "/")) with (start cwd (c :: p)).
  change ((c :: p) ++ s_ "/") with ((c :: p) ++ "/"%char :: []) in C. rewrite components_slash in C.
  destruct k as [|k].
  { exfalso. simpl (repeat _ 0) in C. rewrite app_nil_r in C. change (components []) with [[] : str] in C.
    apply app_inj_tail in C. destruct C as [_ C]. auto. }
  replace (repeat ([] : str) (S k)) with (repeat ([] : str) k ++ [[]]) in C
    by (clear; induction k as [|k IH]; [reflexivity|]; simpl; simpl in IH; rewrite <- IH; reflexivity).
  change (components []) with [[] : str] in C. rewrite !app_assoc in C. apply app_inj_tail in C. destruct C as [C _].
  rewrite C, <- app_assoc, walk_app in R.
  destruct (walk t (start cwd (c :: p)) (rev b)) as [q0| |]; try reflexivity.
  cbn [app walk] in R. destruct (lookup t q0) as [[s|l]|]; try reflexivity.
  destruct (str_eqb n (s_ ".") || str_eqb n (s_ "..")) eqn:X; [reflexivity|].
  apply orb_false_iff in X. destruct X as [X1 X2]. unfold skips in R. rewrite X1, X2 in R.
  destruct (str_eqb_spec n []) as [Q|Q]; [contradiction|]. cbn [orb] in R.
  destruct (lookup t (q0 ++ [n])); [reflexivity|discriminate R].
Qed.

Theorem C96_mkdir_p_slash_refuted :
  forall cwd t p q, view t cwd = ADir -> names cwd p q -> view t q = Nothing ->
  (forall x s, prefix x q -> view t x <> AFile s) ->
  exists t', alone cwd t (mkdir_p (p ++ s_ "/")) = (Throw, t') /\ view t' q = ADir.
Proof.
  assert (G : forall cwd t B r l q, spells r l -> pos cwd t B q -> leading (B ++ r ++ s_ "/") = (B, r ++ s_ "/") ->
     view t (q ++ l) = Nothing -> (forall x s, prefix x (q ++ l) -> view t x <> AFile s) ->
     exists t', alone cwd t (mkdir_p ((B ++ r) ++ s_ "/")) = (Throw, t') /\ view t' (q ++ l) = ADir).
  { intros cwd t B r l q H P L V F.
    assert (NE : B ++ r <> []).
    { intro E. apply app_eq_nil in E. destruct E as [_ E]. apply (spells_not_nil _ _ H E). }
    assert (M : sys_stat t cwd (B ++ r) = Missing).
    { rewrite (stat_spelled _ _ _ _ _ _ H P). destruct (fate_clear t l q F) as [E|E]; [|exact E].
      apply fate_dir in E. rewrite E in V. discriminate V. }
    unfold mkdir_p, fu_exists. rewrite alone_stat, (stat_slash _ _ _ NE M).
    rewrite <- app_assoc, L, each_slash_app.
    destruct (each_slash_ok _ _ _ H _ B t q (each_slash (B ++ r) (s_ "/") (fu_mkdir (B ++ r ++ s_ "/") (Done tt))) P F)
      as (t' & B' & n & q' & E1 & P' & T & N & Q & X).
    rewrite E1, Q.
    assert (V' : view t' (q' ++ [n]) = Nothing).
    { rewrite (proj2 (X (q' ++ [n]))); [rewrite <- Q; exact V|].
      intros (z & Z). apply (f_equal (@length _)) in Z. rewrite !app_length in Z. simpl in Z. lia. }
    change (each_slash (B ++ r) (s_ "/") (fu_mkdir (B ++ r ++ s_ "/") (Done tt)))
      with (ensure (B ++ r) (fu_mkdir (B ++ r ++ s_ "/") (Done tt))).
    rewrite (f_equal (fun z => ensure z (fu_mkdir (B ++ r ++ s_ "/") (Done tt))) T).
    rewrite (ensure_new _ _ _ _ _ _ P' N V').
    exists (add_dir q' n t').
    assert (V2 : view (add_dir q' n t') (q' ++ [n]) = ADir).
    { rewrite (view_add_dir t' q' n (proj1 P') V'). destruct (path_dec _ _); [reflexivity|contradiction]. }
    split; [|exact V2]. unfold fu_mkdir. rewrite alone_mkdir, app_assoc, mkdir_exists; [reflexivity|].
    rewrite T. apply (mkdir_made t'). apply pos_mkdir; assumption. }
  intros cwd t p q V [(l & H & ->)|(s & r & -> & S & H)] Vq F.
  - apply (G cwd t [] p l cwd H (pos_nil _ _ V)); try assumption.
    apply (leading_slashes []); [constructor|]. intros x E.
    destruct p as [|c p]; [apply (spells_not_nil _ _ H); reflexivity|]. injection E as E1 E2.
    apply (spells_head _ _ H p). rewrite E1. reflexivity.
  - assert (V0 : view t [] = ADir) by (apply (prefix_of_dir t cwd); [exact V|exists cwd; reflexivity]).
    apply (G cwd t s r q [] H (pos_root _ _ _ V0 S)); try assumption.
    apply leading_slashes; [apply S|]. intros x E.
    destruct r as [|c r]; [apply (spells_not_nil _ _ H); reflexivity|]. injection E as E1 E2.
    apply (spells_head _ _ H r). rewrite E1. reflexivity.
Qed.
Print Assumptions C96_mkdir_p_slash_refuted.
Example C96_mkdir_p_slash_example :
  alone [s_ "home"] demo_tree (mkdir_p (s_ "new/")) = (Throw, add_dir [s_ "home"] (s_ "new") demo_tree).
Proof. reflexivity. Qed.

(** Two processes that make the same directory: one of them may fail. *)
Theorem C96_mkdir_p_race_refuted :
  forall cwd t n, view t cwd = ADir -> is_name n -> view t (cwd ++ [n]) = Nothing ->
  let others i t := if Nat.eqb i 1 then snd (alone cwd t (mkdir_p n)) else t in
  exists t', exec cwd others (fun _ => false) 0 t (mkdir_p n) = (Throw, t') /\ view t' (cwd ++ [n]) = ADir.
Proof.
  intros cwd t n V N Vn others.
  pose proof N as (N1 & _ & _ & NX).
  assert (NM : names cwd n (cwd ++ [n])) by (left; exists [n]; split; [constructor; exact N|reflexivity]).
  assert (P : pos cwd t [] cwd) by (apply pos_nil; exact V).
  assert (F : forall x s, prefix x (cwd ++ [n]) -> view t x <> AFile s).
  { intros x s Px E. apply prefix_snoc in Px. destruct Px as [Px|Px].
    - rewrite (prefix_of_dir t cwd x V Px) in E. discriminate E.
    - subst x. rewrite Vn in E. discriminate E. }
  destruct (proj1 (C96_mkdir_p cwd t n (cwd ++ [n]) V NM) F) as (t1 & E1 & X1).
  assert (V1 : view t1 (cwd ++ [n]) = ADir) by (apply X1; exists []; rewrite app_nil_r; reflexivity).
  assert (W1 : view t1 cwd = ADir) by (apply X1; exists [n]; reflexivity).
  assert (S0 : sys_stat t cwd n = Missing).
  { change n with ([] ++ n) at 1. rewrite (stat_spelled cwd n [n] [] t cwd (spells_name n N) P).
    cbn [fate]. rewrite V, Vn. reflexivity. }
  assert (M : sys_mkdir t1 cwd n = None).
  { destruct (sys_mkdir t1 cwd n) as [t2|] eqn:E; [|reflexivity]. exfalso.
    unfold sys_mkdir in E. rewrite (components_word n NX) in E. cbn in E.
    destruct (str_eqb_spec n []) as [Q|Q]; [contradiction|]. cbn in E.
    assert (ST : start cwd n = cwd).
    { destruct n as [|c n0]; [contradiction|]. simpl. destruct (Ascii.eqb_spec c "/") as [->|]; [|reflexivity].
      exfalso. apply NX. left. reflexivity. }
    rewrite ST in E. destruct (lookup t1 cwd) as [[]|]; try discriminate E.
    destruct (str_eqb n ["."%char] || str_eqb n ["."%char; "."%char]); [discriminate E|].
    unfold view in V1. destruct (lookup t1 (cwd ++ [n])); [discriminate E|discriminate V1]. }
  exists t1. split; [|exact V1].
  unfold mkdir_p, fu_exists. cbn [exec]. change (others 0 t) with t. rewrite S0.
  assert (L : leading n = ([], n)).
  { apply (leading_slashes [] n); [constructor|]. apply (spells_head n [n]). constructor. exact N. }
  rewrite L. rewrite <- (app_nil_r n) at 1. rewrite each_slash_word by exact NX. cbn [each_slash].
  unfold fu_mkdir. cbn [exec]. change (others 1 t) with (snd (alone cwd t (mkdir_p n))).
  rewrite E1. cbn [snd]. rewrite M. reflexivity.
Qed.
Print Assumptions C96_mkdir_p_race_refuted.

(* ---------------- joinPaths ---------------- *)
Lemma strip_ok p : ~ Forall (eq "/"%char) p ->
  exists a s, strip_trailing_slashes p = Ret a /\ p = a ++ s /\ Forall (eq "/"%char) s /\ a <> [].
Proof.
  intro H. destruct (proj1 (proj2 (proj2 (C35_trim_partial p))) H) as (a & E & s & -> & F & _).
  exists a, s. repeat split; auto. intros ->. apply H. exact F.
Qed.
Lemma strip_none p : (forall r, p <> r ++ ["/"%char]) -> p <> [] -> strip_trailing_slashes p = Ret p.
Proof.
  intros H N. unfold strip_trailing_slashes. destruct (rev p) as [|c r] eqn:E.
  - exfalso. apply N. rewrite <- (rev_involutive p), E. reflexivity.
  - simpl. destruct (Ascii.eqb_spec c "/") as [->|Q].
    + exfalso. apply (H (rev r)). rewrite <- (rev_involutive p), E. reflexivity.
    + f_equal. rewrite <- (rev_involutive p), E. reflexivity.
Qed.
(** A directory with slashes behind it is the directory without them. *)
Lemma resolve_strip t cwd a s q : a <> [] -> Forall (eq "/"%char) s ->
  resolve t cwd (a ++ s) = At q -> view t q = ADir -> resolve t cwd a = At q.
Proof.
  intros NA F R V. destruct F as [|c s HC F]; [rewrite app_nil_r in R; exact R|]. subst c.
  unfold resolve in *. destruct a as [|c a]; [contradiction|].
  change (start cwd ((c :: a) ++ "/"%char :: s)) with (start cwd (c :: a)) in R.
  destruct ((c :: a) ++ "/"%char :: s) as [|c0 z] eqn:Z; [discriminate Z|]. rewrite <- Z in R. clear Z c0 z.
  rewrite components_slash in R.
  assert (C : components s = repeat ([] : str) (S (length s))).
  { clear -F. induction F as [|c s <- F IH]; [reflexivity|]. simpl. rewrite IH. reflexivity. }
  rewrite C, walk_app in R.
  destruct (walk t (start cwd (c :: a)) (components (c :: a))) as [q0| |]; try discriminate R.
  destruct (view t q0) eqn:V0.
  - unfold view in V0. cbn [repeat walk] in R. destruct (lookup t q0) as [[]|]; discriminate.
  - rewrite walk_skips in R by exact V0. exact R.
  - rewrite (walk_file _ _ _ _ V0) in R by discriminate. discriminate R.
Qed.
Lemma resolve_below t cwd a q b : a <> [] -> b <> [] -> resolve t cwd a = At q ->
  resolve t cwd (a ++ "/"%char :: b) = walk t q (components b).
Proof.
  intros NA NB R. unfold resolve in *. destruct a as [|c a]; [contradiction|].
  change (start cwd ((c :: a) ++ "/"%char :: b)) with (start cwd (c :: a)).
  destruct ((c :: a) ++ "/"%char :: b) as [|c0 z] eqn:Z; [discriminate Z|]. rewrite <- Z. clear Z c0 z.
  rewrite components_slash, walk_app, R. reflexivity.
Qed.

(** The joined path leads from the directory of the first to where the second leads from
    there. *)
Theorem C96_join_paths :
  forall t cwd p1 p2 q, ~ Forall (eq "/"%char) p1 ->
  resolve t cwd p1 = At q -> view t q = ADir ->
  p2 <> [] -> (forall r, p2 <> "/"%char :: r) -> (forall r, p2 <> r ++ ["/"%char]) ->
  exists p, join_paths p1 p2 = Ret p /\ resolve t cwd p = resolve t q p2.
Proof.
  intros t cwd p1 p2 q H R V N2 A2 B2. destruct (strip_ok p1 H) as (a & s & E & -> & F & NA).
  exists (a ++ s_ "/" ++ p2). unfold join_paths. rewrite E, (strip_none p2 B2 N2). split; [reflexivity|].
  pose proof (resolve_strip _ _ _ _ _ NA F R V) as R1.
  change (a ++ s_ "/" ++ p2) with (a ++ "/"%char :: p2). rewrite (resolve_below _ _ _ _ _ NA N2 R1).
  unfold resolve. destruct p2 as [|c p2]; [contradiction|]. simpl.
  destruct (Ascii.eqb_spec c "/") as [->|Q]; [exfalso; apply (A2 p2); reflexivity|reflexivity].
Qed.
Print Assumptions C96_join_paths.
Example C96_join_paths_example : join_paths (s_ "/home//") (s_ "sub/b") = Ret (s_ "/home/sub/b") /\
  resolve demo_tree [] (s_ "/home/sub/b") = At [s_ "home"; s_ "sub"; s_ "b"].
Proof. split; reflexivity. Qed.
(** Joining with the root directory or with an empty path is undefined. *)
Theorem C96_join_root_refuted : forall p1 p2,
  Forall (eq "/"%char) p1 -> join_paths p1 p2 = UB.
Proof.
  intros p1 p2 H. unfold join_paths. rewrite (proj1 (proj2 (C35_trim_refuted p1)) H). reflexivity.
Qed.
Print Assumptions C96_join_root_refuted.
Example C96_join_root_example : join_paths (s_ "/") (s_ "etc") = UB /\ join_paths [] (s_ "a") = UB.
Proof. split; apply C96_join_root_refuted; repeat constructor. Qed.

(* ---------------- ls ---------------- *)
Lemma hidden_visible n : n <> [] -> (visible n = false <-> hidden n).
Proof.
  intro N. destruct n as [|c n]; [contradiction|]. cbn [visible].
  destruct (Ascii.eqb_spec c ".") as [->|Q]; split; intro H; try reflexivity; try discriminate H.
  - exists n. reflexivity.
  - destruct H as (r & E). injection E as E _. contradiction.
Qed.
(** ls passes the names that are not hidden to the callback, in order, until it says stop. *)
Theorem C96_ls :
  forall t cwd p q l (keep : str -> bool), resolve t cwd p = At q -> lookup t q = Some (Dir l) ->
  (forall n x, In (n, x) l -> is_name n) ->
  exists seen rest hid,
    ls t cwd p (fun n acc => Ret (acc ++ [n], keep n)) [] = Ret seen /\
    (forall n, In n hid <-> In n (map fst l) /\ hidden n) /\
    filter (fun n => negb (existsb (str_eqb n) hid)) (map fst l) = seen ++ rest /\
    (forall i n, nth_error seen i = Some n -> S i < length seen -> keep n = true) /\
    (rest = [] \/ exists n, nth_error seen (length seen - 1) = Some n /\ keep n = false).
Proof.
  intros t cwd p q l keep R L NM.
  assert (ST : sys_stat t cwd p = IsDir) by (unfold sys_stat; rewrite R, L; reflexivity).
  set (hid := filter (fun n => negb (visible n)) (map fst l)).
  assert (HN : forall n, In n (map fst l) -> n <> []).
  { intros n I. apply in_map_iff in I. destruct I as ((n' & x) & E & I). simpl in E. subst. apply (NM _ _ I). }
  assert (HH : forall n, In n hid <-> In n (map fst l) /\ hidden n).
  { intro n. unfold hid. rewrite filter_In. split; intros [A B]; split; auto.
    - apply (hidden_visible n (HN n A)). destruct (visible n); [discriminate B|reflexivity].
    - apply (hidden_visible n (HN n A)) in B. rewrite B. reflexivity. }
  assert (FV : filter (fun n => negb (existsb (str_eqb n) hid)) (map fst l) = filter visible (map fst l)).
  { apply filter_ext_in. intros n I. destruct (visible n) eqn:Vn.
    - assert (existsb (str_eqb n) hid = false); [|rewrite H; reflexivity].
      apply Bool.not_true_is_false. intro X. apply existsb_exists in X. destruct X as (m & I2 & E).
      destruct (str_eqb_spec n m); [|discriminate]. subst m. apply HH in I2. destruct I2 as [_ I2].
      apply (hidden_visible n (HN n I)) in I2. congruence.
    - assert (existsb (str_eqb n) hid = true); [|rewrite H; reflexivity].
      apply existsb_exists. exists n. split; [|apply str_eqb_refl]. apply HH. split; [exact I|].
      apply hidden_visible; auto. }
  assert (G : forall ns acc, exists more rest,
     until (fun n acc => Ret (acc ++ [n], keep n)) ns acc = Ret (acc ++ more) /\
     filter visible ns = more ++ rest /\
     (forall i n, nth_error more i = Some n -> S i < length more -> keep n = true) /\
     (rest = [] \/ exists n, nth_error more (length more - 1) = Some n /\ keep n = false)).
  { clear. induction ns as [|n ns IH]; intro acc.
    - exists [], []. simpl. rewrite app_nil_r. repeat split; auto. intros [|i] n E; discriminate E.
    - cbn [until filter]. destruct (visible n); [|apply IH]. cbn [bind].
      destruct (keep n) eqn:K.
      + destruct (IH (acc ++ [n])) as (more & rest & E & Fl & A & B).
        exists (n :: more), rest. split; [rewrite E, <- app_assoc; reflexivity|].
        split; [simpl; rewrite Fl; reflexivity|]. split.
        * intros [|i] m E2 Lt; simpl in E2; [injection E2 as <-; exact K|]. apply (A i m E2). simpl in Lt. lia.
        * destruct B as [B|(m & B & Km)]; [left; exact B|]. right. exists m. split; [|exact Km].
          destruct more as [|m0 more]; [discriminate B|]. simpl in *.
          rewrite Nat.sub_0_r in B. exact B.
      + exists [n], (filter visible ns). split; [reflexivity|]. split; [reflexivity|]. split.
        * intros i m _ Lt. simpl in Lt. lia.
        * right. exists n. split; [reflexivity|exact K]. }
  destruct (G (map fst l) []) as (seen & rest & E & Fl & A & B).
  exists seen, rest, hid. unfold ls. rewrite ST, R, L. split; [exact E|]. split; [exact HH|].
  split; [rewrite FV; exact Fl|]. split; [exact A|exact B].
Qed.
Print Assumptions C96_ls.
Example C96_ls_example :
  ls demo_tree [] (s_ "/home") (fun n acc => Ret (acc ++ [n], true)) [] = Ret [s_ "a"; s_ "sub"].
Proof. reflexivity. Qed.

(* ---------------- du_c ---------------- *)
Lemma child_in n x l : NoDup (map fst l) -> In (n, x) l -> child n l = Some x.
Proof.
  induction l as [|[m y] l IH]; intros D I; [destruct I|]. simpl in *. inversion D as [|? ? D1 D2]; subst.
  destruct I as [E|I].
  - injection E as -> ->. rewrite str_eqb_refl. reflexivity.
  - destruct (str_eqb_spec n m) as [->|Q]; [|apply IH; assumption].
    exfalso. apply D1. apply in_map_iff. exists (m, x). auto.
Qed.
(** The sum of the sizes of the files in the directory and below, without the hidden ones. *)
Theorem C96_du_c :
  forall t cwd k p q x s, ~ Forall (eq "/"%char) p ->
  resolve t cwd p = At q -> lookup t q = Some x -> (exists l, x = Dir l) ->
  proper x -> depth k x -> total x s -> du_c t cwd k p = Ret s.
Proof.
  intros t cwd k. induction k as [|k IH]; intros p q x s NP R L (l & ->) PR DP TO; [inversion DP|].
  cbn [du_c]. unfold ls.
  assert (ST : sys_stat t cwd p = IsDir) by (unfold sys_stat; rewrite R, L; reflexivity). rewrite ST, R, L.
  destruct (strip_ok p NP) as (a & sl & E & -> & F & NA).
  assert (Vq : view t q = ADir) by (unfold view; rewrite L; reflexivity).
  pose proof (resolve_strip _ _ _ _ _ NA F R Vq) as R1.
  inversion PR as [|? PE PN]; subst. inversion DP as [|? ? DE]; subst.
  assert (one : forall n y j, In (n, y) l -> total y j -> forall tot,
    (let* name := join_paths (a ++ sl) n in
     let* dir := is_directory t cwd name in
     let* s := if dir then du_c t cwd k name else file_size t cwd name in
     Ret (tot + s, true)) = Ret (tot + j, true)).
  { intros n y j I T tot. destruct (PE n y I) as [N Py]. pose proof N as (N1 & N2 & N3 & N4).
    unfold join_paths. rewrite E, (strip_none n).
    2: { intros r Z. apply N4. rewrite Z. apply in_or_app. right. left. reflexivity. }
    2: exact N1.
    cbn [bind]. change (a ++ s_ "/" ++ n) with (a ++ "/"%char :: n).
    assert (Ln : lookup t (q ++ [n]) = Some y).
    { rewrite lookup_app, L. simpl. rewrite (child_in n y l PN I). reflexivity. }
    assert (Rn : resolve t cwd (a ++ "/"%char :: n) = At (q ++ [n])).
    { rewrite (resolve_below _ _ _ _ _ NA N1 R1), (components_word n N4), (walk_name t q n N Vq).
      unfold view. rewrite Ln. destruct y; reflexivity. }
    unfold is_directory, file_size, sys_stat. rewrite Rn, Ln. destruct y as [d|l'].
    - cbn [bind]. inversion T; subst. reflexivity.
    - cbn [bind]. rewrite (IH (a ++ "/"%char :: n) (q ++ [n]) (Dir l') j); auto.
      + intro Z. apply N1. rewrite Forall_app in Z. destruct Z as [Za _]. destruct a as [|c a]; [contradiction|].
        inversion Za; subst. exfalso.
        apply NP. rewrite Forall_app. split; [constructor; [reflexivity|assumption]|exact F].
      + eauto.
      + apply (DE n). exact I. }
  assert (G : forall l' tot s', (forall z, In z l' -> In z l) -> total (Dir l') s' ->
     until (fun n total => let* name := join_paths (a ++ sl) n in
                           let* dir := is_directory t cwd name in
                           let* s := if dir then du_c t cwd k name else file_size t cwd name in
                           Ret (total + s, true)) (map fst l') tot = Ret (tot + s')).
  { induction l' as [|[n y] l' IHl]; intros tot s' Sub T; inversion T; subst.
    - simpl. rewrite Nat.add_0_r. reflexivity.
    - cbn [map fst until].
      assert (N : n <> []) by (apply (PE n y); apply Sub; left; reflexivity).
      rewrite (proj2 (hidden_visible n N)) by assumption. apply IHl; [intros z I; apply Sub; right; exact I|assumption].
    - cbn [map fst until].
      assert (I : In (n, y) l) by (apply Sub; left; reflexivity).
      assert (N : n <> []) by (apply (PE n y I)).
      destruct (visible n) eqn:Vn; [|exfalso; apply (hidden_visible n N) in Vn; contradiction].
      rewrite (one n y j I) by assumption. cbn [bind].
      rewrite IHl with (s' := k0); [f_equal; lia|intros z Iz; apply Sub; right; exact Iz|assumption]. }
  rewrite (G l 0 s); [reflexivity|auto|exact TO].
Qed.
Print Assumptions C96_du_c.
Example C96_du_c_example : du_c demo_tree [] 2 (s_ "/home/") = Ret 7.
Proof. reflexivity. Qed.
Lemma demo_proper : proper demo_tree /\ depth 3 demo_tree /\ total demo_tree 7.
Proof.
  assert (NoDup1 : forall s : str, NoDup [s]) by (intro; constructor; [intros []|constructor]).
  split; [|split].
  - constructor; [|apply NoDup1]. intros n x [E|[]]. injection E as <- <-. split; [solve_name|].
    constructor.
    + intros n x [E|[E|[E|[]]]]; injection E as <- <-; (split; [solve_name|]); try constructor.
      * intros n x [E|[]]; injection E as <- <-; split; [solve_name|constructor].
      * apply NoDup1.
    + repeat (constructor; [intro I; cbn in I; intuition discriminate|]). constructor.
  - constructor. intros n x [E|[]]; injection E as <- <-. constructor.
    intros n x [E|[E|[E|[]]]]; injection E as <- <-; constructor. intros n x [E|[]]; injection E as <- <-. constructor.
  - assert (V : forall n, visible n = true -> ~ hidden n).
    { intros n E (r & ->). discriminate E. }
    change 7 with (7 + 0). constructor; [apply V; reflexivity| |constructor].
    change 7 with (5 + 2). constructor; [apply V; reflexivity|constructor|].
    apply total_hidden; [eexists; reflexivity|].
    change 2 with (2 + 0). constructor; [apply V; reflexivity| |constructor].
    change 2 with (2 + 0). constructor; [apply V; reflexivity|constructor|constructor].
Qed.
(** Hidden files are not counted, and the root directory cannot be measured at all. *)
Theorem C96_du_c_hidden_refuted :
  forall data, du_c (Dir [(s_ "d", Dir [(s_ ".big", File data)])]) [] 2 (s_ "d") = Ret 0.
Proof. reflexivity. Qed.
Print Assumptions C96_du_c_hidden_refuted.
Theorem C96_du_c_root_refuted :
  forall n x k, visible n = true -> du_c (Dir [(n, x)]) [] (S k) (s_ "/") = UB.
Proof.
  intros n x k V. cbn [du_c]. unfold ls.
  change (sys_stat (Dir [(n, x)]) [] (s_ "/")) with IsDir.
  change (resolve (Dir [(n, x)]) [] (s_ "/")) with (At []). cbn [lookup map fst until]. rewrite V.
  rewrite C96_join_root_refuted by (repeat constructor). reflexivity.
Qed.
Print Assumptions C96_du_c_root_refuted.

(* ---------------- read ---------------- *)
Theorem C96_read :
  forall t cwd p q data, resolve t cwd p = At q -> view t q = AFile data ->
  fu_read t cwd (fun n => n) p = Ret (map Some data).
Proof.
  unfold view, fu_read. intros t cwd p q data R V. rewrite R.
  destruct (lookup t q) as [[s|l]|]; try discriminate V. injection V as ->.
  rewrite Nat.min_id, firstn_all, Nat.sub_diag. simpl. rewrite app_nil_r. reflexivity.
Qed.
Print Assumptions C96_read.
(** A read that delivers less (as for every file of more than 2147479552 bytes on Linux) is not
    noticed: the rest of the buffer is not initialised. *)
Theorem C96_short_read_refuted :
  forall t cwd p q data n, resolve t cwd p = At q -> view t q = AFile data -> n < length data ->
  exists buf, fu_read t cwd (fun _ => n) p = Ret buf /\ length buf = length data /\
    forall i, n <= i < length data -> nth_error buf i = Some None.
Proof.
  unfold view, fu_read. intros t cwd p q data n R V Lt. rewrite R.
  destruct (lookup t q) as [[s|l]|]; try discriminate V. injection V as ->.
  rewrite Nat.min_l by lia. eexists; split; [reflexivity|]. split.
  - rewrite app_length, map_length, firstn_length, repeat_length. lia.
  - intros i [A B]. rewrite nth_error_app2; rewrite map_length, firstn_length, Nat.min_l by lia; [|exact A].
    rewrite nth_error_repeat; [reflexivity|lia].
Qed.
Print Assumptions C96_short_read_refuted.
Example C96_read_example : fu_read demo_tree [s_ "home"] (fun n => n) (s_ "sub/../a") = Ret (map Some (s_ "12345")) /\
  fu_read demo_tree [s_ "home"] (fun _ => 1) (s_ "sub/b") = Ret [Some "9"%char; None].
Proof. split; reflexivity. Qed.

(* ---------------- rm ---------------- *)
Lemma child_remove n m l : NoDup (map fst l) ->
  child m (remove_child n l) = if str_eqb m n then None else child m l.
Proof.
  induction l as [|[k x] l IH]; intro D; simpl; [destruct (str_eqb m n); reflexivity|].
  inversion D as [|? ? D1 D2]; subst.
  destruct (str_eqb_spec n k) as [Q|Q].
  - subst k. destruct (str_eqb_spec m n) as [Q|Q]; [|reflexivity]. subst m.
    destruct (child n l) as [y|] eqn:C; [|reflexivity]. exfalso. apply D1.
    clear -C. induction l as [|[k z] l IH]; simpl in *; [discriminate C|].
    destruct (str_eqb_spec n k) as [->|]; [left; reflexivity|right; apply IH; exact C].
  - simpl. destruct (str_eqb_spec m k) as [Q'|Q'].
    + subst k. destruct (str_eqb_spec m n); [congruence|reflexivity].
    + apply IH. exact D2.
Qed.
Lemma child_proper n x l : proper (Dir l) -> child n l = Some x -> proper x.
Proof.
  intro P. inversion P as [|? H _]; subst. intro C. apply (H n).
  clear -C. induction l as [|[k z] l IH]; simpl in *; [discriminate C|].
  destruct (str_eqb_spec n k) as [->|]; [injection C as ->; left; reflexivity|right; apply IH; exact C].
Qed.
Lemma view_unlink p : forall t s, proper t -> view t p = AFile s -> p <> [] ->
  forall x, view (unlink_at p t) x = if path_dec x p then Nothing else view t x.
Proof.
  induction p as [|m p IH]; intros t s P V N x; [contradiction|]. clear N.
  destruct t as [d|l]; [discriminate V|].
  unfold view in V; cbn [lookup] in V. destruct (child m l) as [y|] eqn:C; [|discriminate V].
  destruct p as [|m2 p].
  - cbn [unlink_at]. destruct x as [|k x]; [destruct (path_dec _ _) as [Q|Q]; [discriminate Q|reflexivity]|].
    unfold view; cbn [lookup]. rewrite child_remove by (inversion P; assumption).
    destruct (str_eqb_spec k m) as [Q|Q].
    + subst k. rewrite C. destruct y as [d|]; [|discriminate V].
      destruct x as [|k x]; destruct (path_dec _ _) as [Q|Q]; try reflexivity; try congruence.
    + destruct (path_dec _ _) as [Q2|Q2]; [injection Q2 as Q2 _; congruence|reflexivity].
  - change (unlink_at (m :: m2 :: p) (Dir l)) with (Dir (add_child m (unlink_at (m2 :: p)) l)).
    destruct x as [|k x]; [destruct (path_dec _ _) as [Q|Q]; [discriminate Q|reflexivity]|].
    unfold view; cbn [lookup]. rewrite child_add. destruct (str_eqb_spec k m) as [Q|Q].
    + subst k. rewrite C. cbn [option_map]. fold (view (unlink_at (m2 :: p) y) x).
      rewrite (IH y s (child_proper _ _ _ P C) V ltac:(discriminate)).
      destruct (path_dec x (m2 :: p)) as [Q|Q]; destruct (path_dec (m :: x) (m :: m2 :: p)) as [Q'|Q'];
        try reflexivity; exfalso; congruence.
    + destruct (path_dec _ _) as [Q2|Q2]; [injection Q2 as Q2 _; congruence|]. reflexivity.
Qed.
(** rm removes the file and nothing else. *)
Theorem C96_rm :
  forall t cwd p q s, proper t -> resolve t cwd p = At q -> view t q = AFile s -> q <> [] ->
  view (rm t cwd p) q = Nothing /\ forall x, x <> q -> view (rm t cwd p) x = view t x.
Proof.
  intros t cwd p q s P R V N. unfold rm, sys_unlink. rewrite R. pose proof V as V'. unfold view in V'.
  destruct (lookup t q) as [[d|l]|]; try discriminate V'.
  split; [|intros x D]; rewrite (view_unlink q t s P V N); destruct (path_dec _ _); try reflexivity; contradiction.
Qed.
Print Assumptions C96_rm.
Example C96_rm_example : view (rm demo_tree [s_ "home"] (s_ "./sub/b")) [s_ "home"; s_ "sub"; s_ "b"] = Nothing /\
  view (rm demo_tree [s_ "home"] (s_ "./sub/b")) [s_ "home"; s_ "a"] = AFile (s_ "12345").
Proof. split; reflexivity. Qed.
(** When the file cannot be removed - a directory, or a path without a file - nothing happens
    and nothing is reported. *)
Theorem C96_rm_refuted :
  forall t cwd p, (forall q s, resolve t cwd p = At q -> view t q <> AFile s) -> rm t cwd p = t.
Proof.
  intros t cwd p H. unfold rm, sys_unlink. destruct (resolve t cwd p) as [q| |]; try reflexivity.
  specialize (H q). unfold view in H. destruct (lookup t q) as [[s|l]|]; try reflexivity.
  exfalso. apply (H s); reflexivity.
Qed.
Print Assumptions C96_rm_refuted.
Example C96_rm_refuted_example : rm demo_tree [] (s_ "/home/sub") = demo_tree /\ rm demo_tree [] (s_ "nofile") = demo_tree.
Proof. split; reflexivity. Qed.

(** C96. Questions about what is not there are exceptions: isDirectory, size, ls and read of a path that
    names nothing; ls of a file, size and read of a directory. A file is not a directory. *)
Theorem C96_absent :
  forall t cwd p q (A : Type) (f : str -> A -> outcome (A * bool)) (a : A) delivers,
  resolve t cwd p = At q ->
  (view t q = Nothing -> is_directory t cwd p = Throw /\ file_size t cwd p = Throw /\ ls t cwd p f a = Throw /\ fu_read t cwd delivers p = Throw) /\
  (forall s, view t q = AFile s -> is_directory t cwd p = Ret false /\ file_size t cwd p = Ret (length s) /\ ls t cwd p f a = Throw) /\
  (view t q = ADir -> is_directory t cwd p = Ret true /\ file_size t cwd p = Throw /\ fu_read t cwd delivers p = Throw).
Proof.
  intros t cwd p q A f a dl R. unfold is_directory, file_size, ls, fu_read, sys_stat, view. rewrite R.
  destruct (lookup t q) as [[l|s]|]; repeat split; intros; try discriminate; congruence.
Qed.
Print Assumptions C96_absent.
(** C96. The same for paths that lead nowhere: a missing directory, or a file in the place of a directory. *)
Theorem C96_nowhere : forall t cwd p (A : Type) (f : str -> A -> outcome (A * bool)) (a : A) delivers,
  (forall q, resolve t cwd p <> At q) ->
  is_directory t cwd p = Throw /\ file_size t cwd p = Throw /\ ls t cwd p f a = Throw /\ fu_read t cwd delivers p = Throw.
Proof.
  intros t cwd p A f a dl N. unfold is_directory, file_size, ls, fu_read, sys_stat.
  destruct (resolve t cwd p) as [q| |] eqn:R; [destruct (N q eq_refl)|repeat split..].
Qed.
Print Assumptions C96_nowhere.
Example C96_nowhere_example : fu_read demo_tree [] (fun n => n) (s_ "nodir/file") = Throw.
Proof. apply (C96_nowhere demo_tree [] (s_ "nodir/file") unit (fun _ a => Ret (a, true)) tt). intros q H. discriminate. Qed.
Example C96_absent_example : is_directory demo_tree [] (s_ "nofile") = Throw.
Proof. reflexivity. Qed.
