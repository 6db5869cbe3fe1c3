(** C96: the file functions. *)
From Verif Require Import Base Str_Model File_Model File_Spec.

Local Open Scope list_scope.
Notation slash := "/"%char.

Definition path_dec : forall a b : list str, {a = b} + {a <> b} := list_eq_dec (list_eq_dec ascii_dec).
Opaque path_dec.

(* ---------------- the tree ---------------- *)
Lemma lookup_app t p q :
  lookup t (p ++ q) = match lookup t p with Some x => lookup x q | None => None end.
Proof.
  revert t; induction p as [|n p IH]; intro t; [reflexivity|].
  simpl. destruct t as [s|l]; [reflexivity|]. destruct (child n l); [apply IH|reflexivity].
Qed.
Lemma child_app n l l' : child n (l ++ l') = match child n l with Some x => Some x | None => child n l' end.
Proof. induction l as [|[m x] l IH]; [reflexivity|]. simpl. destruct (str_eqb n m); auto. Qed.
Lemma child_add n m f l :
  child n (add_child m f l) = if str_eqb n m then option_map f (child n l) else child n l.
Proof.
  induction l as [|[k x] l IH]; simpl; [destruct (str_eqb n m); reflexivity|].
  destruct (str_eqb_spec m k) as [Q|Q]; simpl.
  - subst k. destruct (str_eqb_spec n m); reflexivity.
  - destruct (str_eqb_spec n k) as [Q'|Q'].
    + subst k. destruct (str_eqb_spec n m) as [Q2|Q2]; [congruence|reflexivity].
    + rewrite IH. destruct (str_eqb n m); reflexivity.
Qed.
Lemma view_app t p q x : lookup t p = Some x -> view t (p ++ q) = view x q.
Proof. intro H. unfold view. rewrite lookup_app, H. reflexivity. Qed.

(** Adding a directory changes what is seen at its place and nowhere else. *)
Lemma view_add_dir t p n : view t p = ADir -> view t (p ++ [n]) = Nothing ->
  forall q, view (add_dir p n t) q = if path_dec q (p ++ [n]) then ADir else view t q.
Proof.
  revert t; induction p as [|m p IH]; intros t Hd Hn q.
  - destruct t as [s|l]; [discriminate Hd|]. cbn [add_dir app].
    unfold view in Hn; cbn [app lookup] in Hn.
    assert (N : child n l = None) by (destruct (child n l) as [[]|]; [discriminate Hn|discriminate Hn|reflexivity]).
    destruct q as [|k q]; [destruct (path_dec _ _) as [Q|Q]; [discriminate Q|reflexivity]|].
    unfold view; cbn [lookup]. rewrite child_app.
    destruct (str_eqb_spec k n) as [Q|Q].
    + subst k. rewrite N. simpl. rewrite str_eqb_refl.
      destruct q as [|k q]; cbn [lookup].
      * destruct (path_dec _ _) as [Q|Q]; [reflexivity|congruence].
      * simpl. destruct (path_dec _ _) as [Q|Q]; [discriminate Q|reflexivity].
    + destruct (child k l) as [x|] eqn:C.
      * destruct (path_dec _ _) as [Q'|Q']; [|reflexivity]. injection Q' as Q' _. congruence.
      * simpl. destruct (str_eqb_spec k n) as [Q'|Q']; [congruence|].
        destruct (path_dec _ _) as [Q2|Q2]; [|reflexivity]. injection Q2 as Q2 _. congruence.
  - destruct t as [s|l]; [discriminate Hd|]. cbn [add_dir app].
    unfold view in Hd, Hn; cbn [app lookup] in Hd, Hn.
    destruct (child m l) as [x|] eqn:C; [|discriminate Hd].
    specialize (IH x Hd Hn).
    destruct q as [|k q]; [destruct (path_dec _ _) as [Q|Q]; [discriminate Q|reflexivity]|].
    unfold view; cbn [lookup]. rewrite child_add. destruct (str_eqb_spec k m) as [Q|Q].
    + subst k. rewrite C. cbn [option_map]. fold (view (add_dir p n x) q). rewrite IH.
      destruct (path_dec _ _) as [Q|Q]; destruct (path_dec _ _) as [Q'|Q'];
        try reflexivity; exfalso; congruence.
    + destruct (path_dec _ _) as [Q2|Q2]; [injection Q2 as Q2 _; congruence|]. reflexivity.
Qed.

(* ---------------- paths ---------------- *)
Lemma components_slash p q : components (p ++ slash :: q) = components p ++ components q.
Proof.
  induction p as [|c p IH]; [reflexivity|]. simpl.
  destruct (Ascii.eqb c slash); [rewrite IH; reflexivity|]. simpl in IH. rewrite IH.
  destruct (components p) eqn:E; [|reflexivity].
  destruct p as [|c' p]; simpl in E; [discriminate E|]. destruct (Ascii.eqb c' slash); [discriminate E|].
  destruct (components p); discriminate E.
Qed.
Lemma components_word (n : str) : ~ In slash n -> components n = [n].
Proof.
  induction n as [|c n IH]; intro H; [reflexivity|]. simpl.
  destruct (Ascii.eqb_spec c slash) as [Q|Q]; [exfalso; apply H; left; auto|].
  rewrite IH; [reflexivity|]. intro I; apply H; right; exact I.
Qed.
Lemma walk_app t cur a b :
  walk t cur (a ++ b) = match walk t cur a with At q => walk t q b | x => x end.
Proof.
  revert cur; induction a as [|c a IH]; intro cur; [reflexivity|]. cbn [walk app].
  destruct (lookup t cur) as [[s|l]|]; try reflexivity.
  destruct (skips c); [apply IH|]. destruct (str_eqb c (s_ "..")); [apply IH|].
  destruct (lookup t (cur ++ [c])); [apply IH|reflexivity].
Qed.
Lemma walk_skip t cur c : view t cur = ADir -> skips c = true -> walk t cur [c] = At cur.
Proof. unfold view. intros H S. cbn [walk]. destruct (lookup t cur) as [[]|]; try discriminate H. rewrite S. reflexivity. Qed.
Lemma name_not_skipped n : is_name n -> skips n = false /\ str_eqb n (s_ "..") = false /\ str_eqb n (s_ ".") = false.
Proof.
  intros (A & B & C & _). unfold skips.
  destruct (str_eqb_spec n []); [contradiction|]. destruct (str_eqb_spec n (s_ ".")); [contradiction|].
  destruct (str_eqb_spec n (s_ "..")); [contradiction|]. auto.
Qed.
Lemma walk_name t cur n : is_name n -> view t cur = ADir ->
  walk t cur [n] = match view t (cur ++ [n]) with Nothing => NoEnt | _ => At (cur ++ [n]) end.
Proof.
  intros N H. destruct (name_not_skipped n N) as (A & B & _). unfold view in *. cbn [walk]. rewrite A, B.
  destruct (lookup t cur) as [[]|]; try discriminate H.
  destruct (lookup t (cur ++ [n])) as [[]|]; reflexivity.
Qed.

(** mkdir_p returns normally only if the path is a directory then, whatever other processes
    do meanwhile and whichever system calls fail. *)
Definition is_directory_at (t : node) (cwd : list str) (p : str) : Prop :=
  exists q, resolve t cwd p = At q /\ view t q = ADir.

Lemma stat_dir t cwd p : sys_stat t cwd p = IsDir -> is_directory_at t cwd p.
Proof.
  unfold sys_stat, is_directory_at, view. destruct (resolve t cwd p) as [q| |]; try discriminate.
  destruct (lookup t q) as [[]|] eqn:L; try discriminate. intros _. exists q. rewrite L. auto.
Qed.

Lemma walk_skips t cur k : view t cur = ADir -> walk t cur (repeat ([] : str) k) = At cur.
Proof.
  intro H. induction k as [|k IH]; [reflexivity|].
  change (repeat [] (S k)) with ([[] : str] ++ repeat ([] : str) k).
  rewrite walk_app. pose proof (walk_skip t cur [] H eq_refl) as S. unfold str in *. rewrite S. exact IH.
Qed.
Lemma rev_repeat {A} (a : A) k : rev (repeat a k) = repeat a k.
Proof.
  induction k as [|k IH]; [reflexivity|]. simpl. rewrite IH.
  clear IH. induction k as [|k IH]; [reflexivity|]. simpl. rewrite IH. reflexivity.
Qed.
Lemma drop_empty_rev l n b : drop_empty (rev l) = n :: b ->
  exists k, l = rev b ++ [n] ++ repeat ([] : str) k /\ n <> [].
Proof.
  intro H. assert (G : forall m, drop_empty m = n :: b -> exists k, m = repeat ([] : str) k ++ n :: b /\ n <> []).
  { clear. induction m as [|c m IH]; simpl; [discriminate|].
    destruct (str_eqb_spec c []) as [Q|Q].
    - intro H. destruct (IH H) as (k & E & N). exists (S k). subst. auto.
    - intro H. injection H as -> ->. exists 0. auto. }
  destruct (G _ H) as (k & E & N). exists k. split; [|exact N].
  rewrite <- (rev_involutive l), E, rev_app_distr, rev_repeat. simpl. rewrite <- app_assoc. reflexivity.
Qed.
(** Walking is not affected by a directory added where nothing was. *)
Lemma walk_mono t t' cur cs q :
  (forall x, view t x <> Nothing -> view t' x = view t x) -> walk t cur cs = At q -> walk t' cur cs = At q.
Proof.
  intro M. revert cur. induction cs as [|c cs IH]; intros cur; [auto|]. cbn [walk].
  assert (G : forall x y, lookup t x = Some y -> exists y', lookup t' x = Some y' /\
            match y, y' with Dir _, Dir _ => True | File a, File b => a = b | _, _ => False end).
  { intros x y L. specialize (M x). unfold view in M. rewrite L in M.
    destruct y as [s|l]; destruct (lookup t' x) as [[s'|l']|]; try (discriminate M; discriminate);
      try (exfalso; discriminate (M ltac:(discriminate))).
    - specialize (M ltac:(discriminate)). injection M as ->. eexists; split; [reflexivity|reflexivity].
    - eexists; split; [reflexivity|exact I]. }
  destruct (lookup t cur) as [[s|l]|] eqn:L; try discriminate.
  destruct (G _ _ L) as (y & L' & Y). rewrite L'. destruct y as [s'|l']; [contradiction|].
  destruct (skips c); [apply IH|]. destruct (str_eqb c (s_ "..")); [apply IH|].
  destruct (lookup t (cur ++ [c])) as [z|] eqn:L2; [|discriminate].
  destruct (G _ _ L2) as (z' & -> & _). apply IH.
Qed.
Lemma mkdir_made t cwd p t' : sys_mkdir t cwd p = Some t' -> is_directory_at t' cwd p.
Proof.
  unfold sys_mkdir. destruct (drop_empty (rev (components p))) as [|n b] eqn:D; [discriminate|].
  destruct (drop_empty_rev _ _ _ D) as (k & C & N).
  destruct (walk t (start cwd p) (rev b)) as [q| |] eqn:Wk; try discriminate.
  destruct (lookup t q) as [[s|l]|] eqn:L; try discriminate.
  destruct (str_eqb n (s_ ".") || str_eqb n (s_ "..")) eqn:X; [discriminate|].
  apply orb_false_iff in X. destruct X as [X1 X2].
  destruct (lookup t (q ++ [n])) eqn:L2; [discriminate|]. intro H. injection H as <-.
  assert (Vq : view t q = ADir) by (unfold view; rewrite L; reflexivity).
  assert (Vn : view t (q ++ [n]) = Nothing) by (unfold view; rewrite L2; reflexivity).
  pose proof (view_add_dir t q n Vq Vn) as V.
  assert (M : forall x, view t x <> Nothing -> view (add_dir q n t) x = view t x).
  { intros x Hx. rewrite V. destruct (path_dec _ _) as [Q|Q]; [subst x; contradiction|reflexivity]. }
  exists (q ++ [n]). split; [|rewrite V; destruct (path_dec _ _); [reflexivity|contradiction]].
  unfold resolve. destruct p as [|c0 p0] eqn:P.
  { exfalso. simpl in D. discriminate D. }
  rewrite C, walk_app, (walk_mono _ _ _ _ _ M Wk). cbn [walk app].
  assert (Vq' : view (add_dir q n t) q = ADir) by (rewrite M; [exact Vq|rewrite Vq; discriminate]).
  assert (Vn' : view (add_dir q n t) (q ++ [n]) = ADir)
    by (rewrite V; destruct (path_dec _ _); [reflexivity|contradiction]).
  unfold view in Vq'. destruct (lookup (add_dir q n t) q) as [[]|]; try discriminate Vq'.
  assert (S : skips n = false).
  { unfold skips. rewrite X1. destruct (str_eqb_spec n []); [contradiction|reflexivity]. }
  rewrite S, X2. pose proof Vn' as Vn2. unfold view in Vn2.
  destruct (lookup (add_dir q n t) (q ++ [n])) as [[]|]; try discriminate Vn2.
  apply walk_skips. exact Vn'.
Qed.

Lemma exec_ret {A} cwd others fails (p : str) (k : prog A) :
  forall i t a t', exec cwd others fails i t (fu_mkdir p k) = (Ret a, t') ->
  exists t1, is_directory_at t1 cwd p /\ exec cwd others fails (S i) t1 k = (Ret a, t').
Proof.
  intros i t a t'. cbn [exec fu_mkdir]. destruct (fails i); [cbn [exec]; discriminate|].
  destruct (sys_mkdir (others i t) cwd p) as [t1|] eqn:M; [|cbn [exec]; discriminate].
  intro H. exists t1. split; [eapply mkdir_made; eauto|exact H].
Qed.
Lemma each_slash_last cwd others fails p rest : forall before i t a t',
  exec cwd others fails i t (each_slash before rest (fu_mkdir p (Done tt))) = (Ret a, t') ->
  is_directory_at t' cwd p.
Proof.
  induction rest as [|c rest IH]; intros before i t a t'.
  - cbn [each_slash]. intro H. destruct (exec_ret _ _ _ _ _ _ _ _ _ H) as (t1 & D & R).
    cbn [exec] in R. injection R as _ <-. exact D.
  - cbn [each_slash]. destruct (Ascii.eqb c slash); [|apply IH].
    unfold ensure, fu_exists, fu_is_directory. cbn [exec].
    destruct (fails i); [cbn [exec]; discriminate|].
    destruct (sys_stat (others i t) cwd before); cbn [exec]; try discriminate.
    1,2: destruct (fails (S i)); [cbn [exec]; discriminate|];
         destruct (sys_stat _ cwd before); cbn [exec]; try discriminate; apply IH.
    intro H. destruct (exec_ret _ _ _ _ _ _ _ _ _ H) as (t1 & _ & R). eapply IH; eauto.
Qed.

Theorem C96_mkdir_p_makes_directory :
  forall cwd others fails i t t' p,
  exec cwd others fails i t (mkdir_p p) = (Ret tt, t') -> is_directory_at t' cwd p.
Proof.
  intros cwd others fails i t t' p. unfold mkdir_p, fu_exists, fu_is_directory. cbn [exec].
  destruct (fails i); [cbn [exec]; discriminate|].
  destruct (sys_stat (others i t) cwd p); cbn [exec]; try discriminate.
  1,2: destruct (fails (S i)); [cbn [exec]; discriminate|];
       destruct (sys_stat (others (S i) (others i t)) cwd p) eqn:S2; cbn [exec]; try discriminate;
       intro H; injection H as <-; apply stat_dir; exact S2.
  destruct (leading p) as [a b]. apply each_slash_last.
Qed.
Print Assumptions C96_mkdir_p_makes_directory.

(* ---------------- alone ---------------- *)
Lemma alone_step {A} cwd (p : prog A) : forall i t,
  exec cwd (fun _ t => t) (fun _ => false) i t p = alone cwd t p.
Proof.
  unfold alone. induction p as [a| |q k IH|q k IH]; intros i t; cbn [exec]; try reflexivity.
  - rewrite (IH _ (S i)), (IH _ 1). reflexivity.
  - destruct (sys_mkdir t cwd q); rewrite (IH _ (S i)), (IH _ 1); reflexivity.
Qed.
Lemma alone_stat {A} cwd t q (k : stat_result -> prog A) :
  alone cwd t (Stat q k) = alone cwd t (k (sys_stat t cwd q)).
Proof. unfold alone at 1. cbn [exec]. apply alone_step. Qed.
Lemma alone_mkdir {A} cwd t q (k : bool -> prog A) :
  alone cwd t (MkDir q k) =
  match sys_mkdir t cwd q with Some t' => alone cwd t' (k true) | None => alone cwd t (k false) end.
Proof. unfold alone at 1. cbn [exec]. destruct (sys_mkdir t cwd q); apply alone_step. Qed.

(** [B] is a beginning of a path whose names lead to [q]. *)
Definition pos (cwd : list str) (t : node) (B : str) (q : list str) : Prop :=
  view t q = ADir /\
  exists cs st, walk t st cs = At q /\
  forall X : str, ~ In slash X -> B ++ X <> [] -> components (B ++ X) = cs ++ [X] /\ start cwd (B ++ X) = st.

Lemma pos_nil cwd t : view t cwd = ADir -> pos cwd t [] cwd.
Proof.
  intro H. split; [exact H|]. exists [], cwd. split; [reflexivity|]. intros X NX E. simpl in *.
  split; [apply components_word; exact NX|]. destruct X as [|c X]; [contradiction|]. simpl.
  destruct (Ascii.eqb_spec c slash) as [Q|Q]; [exfalso; apply NX; left; auto|reflexivity].
Qed.
Lemma pos_root cwd t s : view t [] = ADir -> slashes s -> pos cwd t s [].
Proof.
  intros H [N F]. split; [exact H|]. exists (repeat [] (length s)), []. split; [apply walk_skips; exact H|].
  intros X NX _. split.
  - clear N. induction F as [|c s <- F IH]; [apply components_word; exact NX|]. simpl. rewrite IH. reflexivity.
  - destruct F as [|c s <- F]; [contradiction|]. reflexivity.
Qed.
Lemma pos_next cwd t B q (X : str) q' : pos cwd t B q -> ~ In slash X -> B ++ X <> [] ->
  walk t q [X] = At q' -> view t q' = ADir -> pos cwd t (B ++ X ++ [slash]) q'.
Proof.
  intros [_ (cs & st & Wk & C)] NX N Wx V. split; [exact V|]. exists (cs ++ [X]), st. split.
  { rewrite walk_app, Wk. exact Wx. }
  intros Y NY _. destruct (C X NX N) as [C1 C2]. split.
  - replace ((B ++ X ++ [slash]) ++ Y) with ((B ++ X) ++ slash :: Y) by (rewrite <- !app_assoc; reflexivity).
    rewrite components_slash, C1, components_word by exact NY. reflexivity.
  - rewrite <- C2. destruct B as [|c B]; [destruct X as [|c X]; [contradiction|reflexivity]|reflexivity].
Qed.
Lemma pos_mono cwd t t' B q :
  (forall x, view t x <> Nothing -> view t' x = view t x) -> pos cwd t B q -> pos cwd t' B q.
Proof.
  intros M [V (cs & st & Wk & C)]. split; [rewrite M; [exact V|rewrite V; discriminate]|].
  exists cs, st. split; [apply (walk_mono _ _ _ _ _ M Wk)|exact C].
Qed.
Lemma pos_stat cwd t B q (X : str) : pos cwd t B q -> ~ In slash X -> B ++ X <> [] ->
  sys_stat t cwd (B ++ X) =
  match walk t q [X] with
  | At q' => match view t q' with ADir => IsDir | AFile s => IsFile (length s) | Nothing => Missing end
  | NoEnt => Missing
  | NotDir => Failed
  end.
Proof.
  intros [V (cs & st & Wk & C)] NX N. destruct (C X NX N) as [C1 C2].
  unfold sys_stat, resolve. destruct (B ++ X) as [|c r] eqn:E; [contradiction|].
  rewrite C1, C2, walk_app, Wk. destruct (walk t q [X]) as [q'| |]; try reflexivity.
  unfold view. destruct (lookup t q') as [[]|]; reflexivity.
Qed.
Lemma pos_mkdir cwd t B q n : pos cwd t B q -> is_name n -> view t (q ++ [n]) = Nothing ->
  sys_mkdir t cwd (B ++ n) = Some (add_dir q n t).
Proof.
  intros [V (cs & st & Wk & C)] N V2. pose proof N as (N1 & N2 & N3 & N4).
  destruct (C n N4) as [C1 C2]; [intro E; apply app_eq_nil in E; destruct E; contradiction|].
  unfold sys_mkdir. rewrite C1, C2, rev_app_distr. simpl.
  destruct (str_eqb_spec n []) as [Q|Q]; [contradiction|]. rewrite rev_involutive, Wk.
  destruct (name_not_skipped n N) as (_ & S2 & S3). unfold s_ in S2, S3; simpl in S2, S3. rewrite S3, S2.
  unfold view in V, V2. destruct (lookup t q) as [[]|]; try discriminate V.
  destruct (lookup t (q ++ [n])) as [[]|]; try discriminate V2. reflexivity.
Qed.

Lemma ensure_dir {A} cwd t B q (X : str) q' (k : prog A) : pos cwd t B q -> ~ In slash X -> B ++ X <> [] ->
  walk t q [X] = At q' -> view t q' = ADir -> alone cwd t (ensure (B ++ X) k) = alone cwd t k.
Proof.
  intros P NX N Wx V. unfold ensure, fu_exists, fu_is_directory.
  rewrite alone_stat, (pos_stat _ _ _ _ _ P NX N), Wx, V.
  rewrite alone_stat, (pos_stat _ _ _ _ _ P NX N), Wx, V. reflexivity.
Qed.
Lemma ensure_new {A} cwd t B q n (k : prog A) : pos cwd t B q -> is_name n -> view t (q ++ [n]) = Nothing ->
  alone cwd t (ensure (B ++ n) k) = alone cwd (add_dir q n t) k.
Proof.
  intros P N V. pose proof N as (N1 & _ & _ & N4).
  assert (NE : B ++ n <> []) by (intro E; apply app_eq_nil in E; destruct E; contradiction).
  unfold ensure, fu_exists, fu_mkdir. rewrite alone_stat, (pos_stat _ _ _ _ _ P N4 NE).
  pose proof P as [Vq _]. rewrite (walk_name _ _ _ N Vq), V. rewrite alone_mkdir, (pos_mkdir _ _ _ _ _ P N V).
  reflexivity.
Qed.

Lemma each_slash_word {A} n : ~ In slash n -> forall B r (k : prog A),
  each_slash B (n ++ r) k = each_slash (B ++ n) r k.
Proof.
  induction n as [|c n IH]; intros H B r k; [rewrite app_nil_r; reflexivity|]. simpl.
  destruct (Ascii.eqb_spec c slash) as [Q|Q]; [exfalso; apply H; left; auto|].
  rewrite IH; [rewrite <- app_assoc; reflexivity|]. intro I; apply H; right; exact I.
Qed.
Lemma each_slash_slashes {A} cwd t q s : Forall (eq slash) s -> forall B r (k : prog A),
  pos cwd t B q -> B <> [] ->
  alone cwd t (each_slash B (s ++ r) k) = alone cwd t (each_slash (B ++ s) r k) /\ pos cwd t (B ++ s) q.
Proof.
  induction 1 as [|c s <- F IH]; intros B r k P NE; [rewrite app_nil_r; auto|].
  cbn [app each_slash]. rewrite Ascii.eqb_refl.
  assert (W : walk t q [[] : str] = At q) by (apply walk_skip; [apply P|reflexivity]).
  assert (NE2 : B ++ [] <> []) by (rewrite app_nil_r; exact NE).
  pose proof (pos_next _ _ _ _ [] _ P (fun I => I) NE2 W (proj1 P)) as P2. cbn [app] in P2.
  pose proof (ensure_dir _ _ _ _ [] _ (each_slash (B ++ [slash]) (s ++ r) k) P (fun I => I) NE2 W (proj1 P)) as R.
  rewrite app_nil_r in R. rewrite R.
  destruct (IH (B ++ [slash]) r k P2) as [E P3]; [destruct B; discriminate|].
  rewrite <- app_assoc in E, P3. auto.
Qed.

Lemma view_prefix t q : view t q <> Nothing -> forall x y, q = x ++ y -> y <> [] -> view t x = ADir.
Proof.
  intros V x y -> N. unfold view in *. rewrite lookup_app in V.
  destruct (lookup t x) as [[s|l]|]; [|reflexivity|contradiction].
  destruct y; [contradiction|]. exfalso. apply V. reflexivity.
Qed.
Lemma prefix_dec (x q : list str) : {prefix x q} + {~ prefix x q}.
Proof.
  revert q; induction x as [|a x IH]; intro q; [left; exists q; reflexivity|].
  destruct q as [|b q]; [right; intros (r & E); discriminate E|].
  destruct (list_eq_dec ascii_dec a b) as [Q|Q].
  - subst b. destruct (IH q) as [P|P]; [left|right].
    + destruct P as (r & ->). exists r. reflexivity.
    + intros (r & E). injection E as E. apply P. exists r. exact E.
  - right. intros (r & E). injection E as E _. congruence.
Qed.
Lemma prefix_of_dir t q x : view t q = ADir -> prefix x q -> view t x = ADir.
Proof.
  intros V (r & E). destruct r as [|c r]; [rewrite app_nil_r in E; subst; exact V|].
  apply (view_prefix t q) with (y := c :: r); [rewrite V; discriminate|exact E|discriminate].
Qed.
(** The tree [t'] is [t] with directories wherever there was nothing on the way to [q]. *)
Definition extended (t t' : node) (q : list str) : Prop :=
  forall x, (prefix x q -> view t' x = ADir) /\ (~ prefix x q -> view t' x = view t x).
Lemma extended_self t q : view t q = ADir -> extended t t q.
Proof. intros V x. split; [apply prefix_of_dir; exact V|reflexivity]. Qed.
Lemma prefix_snoc x (q : list str) n : prefix x (q ++ [n]) <-> prefix x q \/ x = q ++ [n].
Proof.
  split.
  - intros (r & E). revert E. pattern r; apply rev_ind; [|intros c r' _]; intro E.
    + right. rewrite app_nil_r in E. auto.
    + left. rewrite app_assoc in E. apply app_inj_tail in E. destruct E as [-> _]. exists r'. reflexivity.
  - intros [(r & E)|E]; subst; [exists (r ++ [n]); rewrite app_assoc; reflexivity|exists []; rewrite app_nil_r; reflexivity].
Qed.
Lemma extended_add t q n : view t q = ADir -> view t (q ++ [n]) = Nothing -> extended t (add_dir q n t) (q ++ [n]).
Proof.
  intros V V2 x. rewrite (view_add_dir t q n V V2), prefix_snoc.
  destruct (path_dec x (q ++ [n])) as [Q|Q]; split; auto.
  - intro H. exfalso. apply H. auto.
  - intros [H|H]; [apply (prefix_of_dir t q); assumption|contradiction].
Qed.
Lemma prefix_trans (x y z : list str) : prefix x y -> prefix y z -> prefix x z.
Proof. intros (r & ->) (s & ->). exists (r ++ s). rewrite app_assoc. reflexivity. Qed.
Lemma extended_trans t t1 t2 q1 q2 : prefix q1 q2 -> extended t t1 q1 -> extended t1 t2 q2 -> extended t t2 q2.
Proof.
  intros P E1 E2 x. destruct (E1 x) as [A1 B1], (E2 x) as [A2 B2]. split; [exact A2|].
  intro H. rewrite (B2 H). apply B1. intro H2. apply H. apply (prefix_trans _ q1); assumption.
Qed.

Lemma spells_last r l : spells r l -> exists l' m, l = l' ++ [m].
Proof.
  induction 1 as [n _|n s r l _ _ _ (l' & m & ->)|s r l _ _ IH]; [exists [], n; reflexivity| |exact IH].
  exists (n :: l'), m. reflexivity.
Qed.
(** The loop arrives in front of the last name. *)
Lemma each_slash_ok cwd r l : spells r l -> forall A B t q (k : prog A),
  pos cwd t B q ->
  (forall x s, prefix x (q ++ l) -> view t x <> AFile s) ->
  exists t' B' n q', alone cwd t (each_slash B r k) = alone cwd t' k /\
    pos cwd t' B' q' /\ B ++ r = B' ++ n /\ is_name n /\ q ++ l = q' ++ [n] /\ extended t t' q'.
Proof.
  induction 1 as [n N|n s r l N [NS S] H IH|s r l [NS S] H IH]; intros A B t q k P NF.
  - exists t, B, n, q. pose proof N as (_ & _ & _ & NX).
    rewrite <- (app_nil_r n) at 1. rewrite each_slash_word by exact NX.
    split; [reflexivity|]. split; [exact P|]. split; [reflexivity|]. split; [exact N|]. split; [reflexivity|].
    apply extended_self, P.
  - pose proof N as (N1 & _ & _ & NX).
    rewrite each_slash_word by exact NX.
    destruct s as [|c s]; [contradiction|]. inversion S as [|? ? HC HS]; subst.
    assert (NE : B ++ n <> []) by (intro E; apply app_eq_nil in E; destruct E; contradiction).
    assert (P0 : prefix (q ++ [n]) (q ++ n :: l)) by (exists l; rewrite <- app_assoc; reflexivity).
    cbn [app each_slash]. rewrite Ascii.eqb_refl.
    assert (G : exists t1, alone cwd t (ensure (B ++ n) (each_slash ((B ++ n) ++ [slash]) (s ++ r) k)) =
                           alone cwd t1 (each_slash ((B ++ n) ++ [slash]) (s ++ r) k) /\
                pos cwd t1 (B ++ n ++ [slash]) (q ++ [n]) /\ extended t t1 (q ++ [n])).
    { pose proof (walk_name t q n N (proj1 P)) as Wn.
      destruct (view t (q ++ [n])) eqn:V.
      - pose proof (extended_add t q n (proj1 P) V) as X.
        exists (add_dir q n t). split; [apply ensure_new; assumption|]. split; [|exact X].
        assert (P' : pos cwd (add_dir q n t) B q).
        { apply (pos_mono cwd t); [|exact P]. intros x Hx. rewrite (view_add_dir t q n (proj1 P) V).
          destruct (path_dec x (q ++ [n])) as [Q|Q]; [subst; contradiction|reflexivity]. }
        assert (V' : view (add_dir q n t) (q ++ [n]) = ADir) by (apply X; exists []; rewrite app_nil_r; reflexivity).
        apply (pos_next _ _ _ q); try assumption. rewrite (walk_name _ _ _ N (proj1 P')), V'. reflexivity.
      - exists t. split; [apply (ensure_dir _ _ _ q n (q ++ [n])); assumption|]. split; [|apply extended_self; exact V].
        apply (pos_next _ _ _ q); assumption.
      - exfalso. apply (NF (q ++ [n]) data P0). exact V. }
    destruct G as (t1 & E1 & P1 & X1). rewrite E1.
    destruct (each_slash_slashes cwd t1 (q ++ [n]) s HS ((B ++ n) ++ [slash]) r k) as [E2 P2].
    { rewrite <- app_assoc. exact P1. }
    { destruct B, n; discriminate. }
    rewrite E2. destruct (IH A (((B ++ n) ++ [slash]) ++ s) t1 (q ++ [n]) k P2) as (t' & B' & m & q' & E & P' & T & Nm & Q & X).
    { intros x d Hx V. destruct (prefix_dec x (q ++ [n])) as [Px|Px].
      - rewrite (proj1 (X1 x) Px) in V. discriminate V.
      - rewrite (proj2 (X1 x) Px) in V. apply (NF x d); [|exact V]. rewrite <- app_assoc in Hx. exact Hx. }
    exists t', B', m, q'. split; [exact E|]. split; [exact P'|]. split; [rewrite <- T, <- !app_assoc; reflexivity|].
    split; [exact Nm|]. split; [rewrite <- Q, <- app_assoc; reflexivity|].
    apply (extended_trans t t1 t' (q ++ [n]) q'); try assumption.
    destruct (spells_last _ _ H) as (l' & m' & ->).
    rewrite app_assoc in Q. apply app_inj_tail in Q. destruct Q as [<- _]. exists l'. reflexivity.
  - assert (D : ~ In slash (s_ ".")) by (intros [I|[]]; discriminate I).
    rewrite each_slash_word by exact D.
    destruct s as [|c s]; [contradiction|]. inversion S as [|? ? HC HS]; subst.
    assert (NE : B ++ s_ "." <> []) by (destruct B; discriminate).
    cbn [app each_slash]. rewrite Ascii.eqb_refl.
    assert (Wd : walk t q [s_ "."] = At q) by (apply walk_skip; [apply P|reflexivity]).
    rewrite (ensure_dir _ _ _ q (s_ ".") q _ P D NE Wd (proj1 P)).
    pose proof (pos_next _ _ _ _ _ _ P D NE Wd (proj1 P)) as P1.
    destruct (each_slash_slashes cwd t q s HS ((B ++ s_ ".") ++ [slash]) r k) as [E2 P2].
    { rewrite <- app_assoc. exact P1. }
    { destruct B; discriminate. }
    rewrite E2. destruct (IH A (((B ++ s_ ".") ++ [slash]) ++ s) t q k P2 NF) as (t' & B' & m & q' & E & P' & T & Nm & Q & X).
    exists t', B', m, q'. split; [exact E|]. split; [exact P'|]. split; [rewrite <- T, <- !app_assoc; reflexivity|].
    split; [exact Nm|]. split; [exact Q|exact X].
Qed.

Lemma leading_slashes s r : Forall (eq slash) s -> (forall x, r <> slash :: x) -> leading (s ++ r) = (s, r).
Proof.
  intros F H. induction F as [|c s <- F IH].
  - simpl. destruct r as [|c r]; [reflexivity|]. simpl.
    destruct (Ascii.eqb_spec c slash) as [Q|Q]; [exfalso; subst; apply (H r); reflexivity|reflexivity].
  - simpl. rewrite IH. reflexivity.
Qed.
Lemma spells_head r l : spells r l -> forall x, r <> slash :: x.
Proof.
  induction 1 as [n N|n s r l N S H IH|s r l S H IH]; intros x E.
  - destruct N as (_ & _ & _ & N). apply N. subst. left; reflexivity.
  - destruct N as (N1 & _ & _ & N). destruct n as [|c n]; [contradiction|].
    injection E as E _. subst. apply N. left; reflexivity.
  - discriminate E.
Qed.
Lemma spells_not_nil r l : spells r l -> r <> [].
Proof.
  induction 1 as [n (N & _)|n s r l (N & _) S H IH|s r l S H IH]; [exact N| |discriminate].
  destruct n; [contradiction|discriminate].
Qed.
(** What stat finds at the end of a list of names. *)
Fixpoint fate (t : node) (q l : list str) : stat_result :=
  match view t q, l with
  | Nothing, _ => Missing
  | AFile s, [] => IsFile (length s)
  | AFile _, _ => Failed
  | ADir, [] => IsDir
  | ADir, n :: l => fate t (q ++ [n]) l
  end.
Definition stat_at (t : node) (w : place) : stat_result :=
  match w with
  | At q => match view t q with ADir => IsDir | AFile s => IsFile (length s) | Nothing => Missing end
  | NoEnt => Missing
  | NotDir => Failed
  end.
Lemma stat_resolve t cwd p : sys_stat t cwd p = stat_at t (resolve t cwd p).
Proof.
  unfold sys_stat, stat_at, view. destruct (resolve t cwd p) as [q| |]; try reflexivity.
  destruct (lookup t q) as [[]|]; reflexivity.
Qed.
Lemma components_slashes s r : Forall (eq slash) s -> components (s ++ r) = repeat ([] : str) (length s) ++ components r.
Proof. induction 1 as [|c s <- F IH]; [reflexivity|]. simpl. rewrite IH. reflexivity. Qed.
Lemma components_not_nil r : components r <> [].
Proof.
  destruct r as [|c r]; simpl; [discriminate|]. destruct (Ascii.eqb c slash); [discriminate|].
  destruct (components r); discriminate.
Qed.
Lemma walk_file t q s cs : view t q = AFile s -> cs <> [] -> walk t q cs = NotDir.
Proof.
  unfold view. intros V N. destruct cs; [contradiction|]. cbn [walk].
  destruct (lookup t q) as [[]|]; try discriminate V. reflexivity.
Qed.
Lemma walk_spelled t r l : spells r l -> forall q, view t q = ADir ->
  stat_at t (walk t q (components r)) = fate t q l.
Proof.
  induction 1 as [n N|n s r l N [NS S] H IH|s r l [NS S] H IH]; intros q V.
  - rewrite components_word by apply N. rewrite (walk_name t q n N V). cbn [fate]. rewrite V.
    destruct (view t (q ++ [n])) eqn:V2; cbn [stat_at]; try rewrite V2; reflexivity.
  - destruct s as [|c s]; [contradiction|]. inversion S as [|? ? HC HS]; subst.
    cbn [app]. rewrite components_slash, components_word, components_slashes by (assumption || apply N).
    rewrite walk_app, (walk_name t q n N V). cbn [fate]. rewrite V.
    destruct (spells_last _ _ H) as (l' & m & El).
    destruct (view t (q ++ [n])) eqn:V2.
    + destruct l; cbn [fate]; rewrite V2; reflexivity.
    + rewrite walk_app, walk_skips by exact V2. apply IH. exact V2.
    + rewrite (walk_file _ _ _ _ V2).
      * destruct l as [|x l]; [destruct l'; discriminate El|]. cbn [fate]. rewrite V2. reflexivity.
      * destruct (repeat ([] : str) (length s)); [apply components_not_nil|discriminate].
  - destruct s as [|c s]; [contradiction|]. inversion S as [|? ? HC HS]; subst.
    cbn [app]. rewrite components_slash, components_word, components_slashes
      by (assumption || (intros [I|[]]; discriminate I)).
    rewrite walk_app, (walk_skip t q (s_ ".") V eq_refl), walk_app, walk_skips by exact V. apply IH. exact V.
Qed.
Lemma first_word r : exists w, ~ In slash w /\ (r = w \/ exists r', r = w ++ slash :: r').
Proof.
  induction r as [|c r (w & N & H)]; [exists []; split; [intros []|left; reflexivity]|].
  destruct (Ascii.eqb_spec c slash) as [->|Q].
  - exists []. split; [intros []|]. right. exists r. reflexivity.
  - exists (c :: w). split; [intros [I|I]; auto|]. destruct H as [->|(r' & ->)]; [left; reflexivity|].
    right. exists r'. reflexivity.
Qed.
Lemma stat_spelled cwd r l B t q : spells r l -> pos cwd t B q -> sys_stat t cwd (B ++ r) = fate t q l.
Proof.
  intros H [V (cs & st & Wk & C)]. rewrite stat_resolve.
  destruct (first_word r) as (w & N & E).
  assert (NE : B ++ w <> []).
  { intro Z. apply app_eq_nil in Z. destruct Z as [-> ->]. destruct E as [->|(r' & ->)].
    - apply (spells_not_nil _ _ H). reflexivity.
    - apply (spells_head _ _ H r'). reflexivity. }
  destruct (C w N NE) as [C1 C2].
  assert (E2 : components (B ++ r) = cs ++ components r /\ start cwd (B ++ r) = st).
  { destruct E as [->|(r' & ->)]; [rewrite (components_word w N); auto|].
    rewrite app_assoc, !components_slash, C1, (components_word w N), <- app_assoc. split; [reflexivity|].
    rewrite <- C2. destruct (B ++ w); [contradiction|reflexivity]. }
  destruct E2 as [E2 E3]. unfold resolve. destruct (B ++ r) as [|c0 r0] eqn:Z.
  { exfalso. apply app_eq_nil in Z. destruct Z as [-> ->].
    destruct E as [<-|(r' & E)]; [apply NE; reflexivity|destruct w; discriminate E]. }
  rewrite E2, E3, walk_app, Wk. apply walk_spelled; assumption.
Qed.

Lemma fate_dir t l : forall q, fate t q l = IsDir <-> view t (q ++ l) = ADir.
Proof.
  induction l as [|n l IH]; intro q; cbn [fate].
  - rewrite app_nil_r. destruct (view t q); split; congruence.
  - replace (q ++ n :: l) with ((q ++ [n]) ++ l) by (rewrite <- app_assoc; reflexivity). rewrite <- IH.
    destruct (view t q) eqn:V; [| reflexivity |].
    + split; [discriminate|]. rewrite IH. intro H. exfalso.
      rewrite (prefix_of_dir t _ q H) in V; [discriminate V|]. exists (n :: l). rewrite <- app_assoc. reflexivity.
    + split; [discriminate|]. rewrite IH. intro H. exfalso.
      rewrite (prefix_of_dir t _ q H) in V; [discriminate V|]. exists (n :: l). rewrite <- app_assoc. reflexivity.
Qed.
(** Without a file on the way. *)
Lemma fate_clear t l : forall q, (forall x s, prefix x (q ++ l) -> view t x <> AFile s) ->
  fate t q l = IsDir \/ fate t q l = Missing.
Proof.
  induction l as [|n l IH]; intros q F; cbn [fate].
  - destruct (view t q) eqn:V; auto. exfalso. apply (F q data); [exists []|]; auto.
  - destruct (view t q) eqn:V; auto.
    + apply IH. intros x s P. apply F. rewrite <- app_assoc in P. exact P.
    + exfalso. apply (F q data); [exists (n :: l)|]; auto.
Qed.
(** With a file on the way. *)
Lemma fate_file t l x s : forall q, view t q = ADir -> prefix x (q ++ l) -> view t x = AFile s ->
  fate t q l = Failed \/ exists k, fate t q l = IsFile k.
Proof.
  induction l as [|n l IH]; intros q V P F; cbn [fate]; rewrite V.
  - rewrite app_nil_r in P. rewrite (prefix_of_dir t q x V P) in F. discriminate F.
  - destruct (view t (q ++ [n])) eqn:V2.
    + exfalso. destruct P as (r & E).
      destruct (prefix_dec x q) as [Q|Q]; [rewrite (prefix_of_dir t q x V Q) in F; discriminate F|].
      assert (Px : prefix (q ++ [n]) x).
      { clear -E Q. revert x Q E. induction q as [|a q IH]; intros x Q E.
        - destruct x as [|b x]; [exfalso; apply Q; exists []; reflexivity|].
          injection E as E1 E2. exists x. rewrite E1. reflexivity.
        - destruct x as [|b x]; [exfalso; apply Q; exists (a :: q); reflexivity|].
          injection E as E1 E2. destruct (IH x) as (z & Z).
          + intros (z & Z). apply Q. exists z. simpl. rewrite <- Z, E1. reflexivity.
          + exact E2.
          + exists z. simpl. rewrite Z, E1. reflexivity. }
      destruct Px as (z & Z). unfold view in F, V2. rewrite Z, lookup_app in F.
      destruct (lookup t (q ++ [n])) as [[]|]; discriminate.
    + apply (IH (q ++ [n])); [exact V2| |exact F]. rewrite <- app_assoc. exact P.
    + destruct l as [|m l]; cbn [fate]; rewrite V2; [right; eexists; reflexivity|left; reflexivity].
Qed.

(** What mkdir_p does with a path that is spelled with names, whose working directory exists,
    when no other process interferes. *)
Lemma mkdir_p_spelled cwd t B r l q :
  spells r l -> pos cwd t B q -> leading (B ++ r) = (B, r) ->
  ((forall x s, prefix x (q ++ l) -> view t x <> AFile s) ->
   exists t', alone cwd t (mkdir_p (B ++ r)) = (Ret tt, t') /\ extended t t' (q ++ l)) /\
  ((exists x s, prefix x (q ++ l) /\ view t x = AFile s) -> alone cwd t (mkdir_p (B ++ r)) = (Throw, t)).
Proof.
  intros H P L. unfold mkdir_p, fu_exists, fu_is_directory. rewrite alone_stat, (stat_spelled _ _ _ _ _ _ H P). split.
  - intro F. destruct (fate_clear t l q F) as [E|E]; rewrite E.
    + rewrite alone_stat, (stat_spelled _ _ _ _ _ _ H P), E. exists t. split; [reflexivity|].
      apply extended_self, fate_dir, E.
    + rewrite L. destruct (each_slash_ok _ _ _ H _ B t q (fu_mkdir (B ++ r) (Done tt)) P F)
        as (t' & B' & n & q' & E1 & P' & T & N & Q & X).
      assert (V : view t' (q' ++ [n]) = Nothing).
      { rewrite (proj2 (X (q' ++ [n]))).
        - rewrite <- Q. destruct (view t (q ++ l)) eqn:V; [reflexivity| |].
          + apply fate_dir in V. rewrite V in E. discriminate E.
          + exfalso. apply (F (q ++ l) data); [exists []; rewrite app_nil_r|]; auto.
        - intros (z & Z). apply (f_equal (@length _)) in Z. rewrite !app_length in Z. simpl in Z. lia. }
      exists (add_dir q' n t'). split.
      * rewrite E1. unfold fu_mkdir. rewrite alone_mkdir, T, (pos_mkdir _ _ _ _ _ P' N V). reflexivity.
      * rewrite Q. apply (extended_trans t t' _ q'); [exists [n]; reflexivity|exact X|].
        apply extended_add; [apply P'|exact V].
  - intros (x & s & Px & V). destruct (fate_file t l x s q (proj1 P) Px V) as [E|(k & E)]; rewrite E; [reflexivity|].
    rewrite alone_stat, (stat_spelled _ _ _ _ _ _ H P), E. reflexivity.
Qed.
Theorem C96_mkdir_p :
  forall cwd t p q, view t cwd = ADir -> names cwd p q ->
  ((forall x s, prefix x q -> view t x <> AFile s) ->
   exists t', alone cwd t (mkdir_p p) = (Ret tt, t') /\
     forall x, (prefix x q -> view t' x = ADir) /\ (~ prefix x q -> view t' x = view t x)) /\
  ((exists x s, prefix x q /\ view t x = AFile s) -> alone cwd t (mkdir_p p) = (Throw, t)).
Proof.
  intros cwd t p q V [(l & H & ->)|(s & r & -> & S & H)].
  - apply (mkdir_p_spelled cwd t [] p l cwd H (pos_nil _ _ V)).
    rewrite <- (app_nil_l ([] ++ p)). apply leading_slashes; [constructor|apply (spells_head _ _ H)].
  - assert (V0 : view t [] = ADir) by (apply (prefix_of_dir t cwd); [exact V|exists cwd; reflexivity]).
    apply (mkdir_p_spelled cwd t s r q [] H (pos_root _ _ _ V0 S)).
    apply leading_slashes; [apply S|apply (spells_head _ _ H)].
Qed.
Print Assumptions C96_mkdir_p.
