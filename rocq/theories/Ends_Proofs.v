(** A modest program keeps its scales usable, and all its commands end in a defined way. *)
From Coq Require Import Reals Lra Lia.
From Verif Require Import Base Num Sexpr_Model Dispatch_Model Data_Model Data_Spec Scale_Model
  Units_Model Color_Model Geo_Model Svg_Model Geojson_Model Format_Model Legend_Model Cmd_Model Cmd_Spec Cmd_Proofs Style_Model Plot_Model Plot_Spec Plot_Proofs Plot_Parts
  Axis_Model Eval_Model Eval_Spec Eval_Proofs Safe_Spec Safe_Proofs Safe_Proofs2 Safe_Proofs3 Safe_Props Safe_Props2 Ends_Spec.
Local Open Scope R_scope.

Section Modest.
  Variable W : world.
  Hypothesis T : tame W.
  Hypothesis CW : counts W.
  (** Whether there may be categories. *)
  Variable cat : Prop.
  Hypothesis dec_cat : cat \/ ~ cat.

  Definition banned (w : str) : Prop := left_out w \/ (w = s_ "polygons" /\ cat).
  Definition okl (e : list expr) : Prop :=
    (forall w, In w (flat_map atoms e) -> ~ banned w /\ defined (geojson_shapes W w)) /\
    Forall named_categories e /\ (says e "categorical" -> cat) /\
    (forall l k a, In l (flat_map lists e) -> option_of (EList l) = Some (k, a) -> plain_option W k a).
  Definition fine (s : scale) : Prop :=
    s_kind s <> Logarithmic /\
    (s_kind s = Categorical -> cat /\ s_categories s <> [] /\ (Z.of_nat (length (s_categories s)) < 2 ^ 53)%Z) /\
    Forall (fun q : str * nat => (Z.of_nat (snd q) < 2 ^ 53)%Z) (s_cmap s).
  Lemma fine_usable s : fine s -> usable s.
  Proof. intros (_ & F & C) K. destruct (F K) as (_ & A & B). now split. Qed.

  Lemma fold_and l : fold_right (fun y P => named_categories y /\ P) True l -> Forall named_categories l.
  Proof. induction l as [|x l IH]; cbn [fold_right]; constructor; [apply H|apply IH, H]. Qed.
  Lemma okl_in e x : okl e -> In x e -> okl [x].
  Proof.
    intros (A & B & C & P) I. assert (S : forall w, In w (flat_map atoms [x]) -> In w (flat_map atoms e)).
    { intros w H. cbn [flat_map] in H. rewrite app_nil_r in H. apply in_flat_map. eauto. }
    split; [auto|]. split; [constructor; [|constructor]; rewrite Forall_forall in B; auto|]. split; [intro H; apply C, S, H|].
    intros l k a H. apply P. cbn [flat_map] in H. rewrite app_nil_r in H. apply in_flat_map. eauto.
  Qed.
  Lemma okl_tail x e : okl (x :: e) -> okl e.
  Proof.
    intros (A & B & C & P). split; [intros w H; apply A; cbn [flat_map]; apply in_or_app; now right|]. split; [now inversion B|].
    split; [intro H; apply C; unfold says; cbn [flat_map]; apply in_or_app; now right|].
    intros l k a H. apply P. cbn [flat_map]. apply in_or_app. now right.
  Qed.
  Lemma okl_nil : okl []. Proof. split; [intros w []|]. split; [constructor|]. split; [intros []|intros l k a []]. Qed.
  Lemma okl_one x : okl [EList x] -> (forall h a, x = h :: a -> okl a) /\ (forall h a, x = h :: a -> is_categorical h = false -> okl x).
  Proof.
    intros (A & B & C & P). cbn [flat_map lists] in P. rewrite app_nil_r in P. cbn [flat_map atoms] in A. rewrite app_nil_r in A. unfold says in C. cbn [flat_map atoms] in C. rewrite app_nil_r in C.
    apply Forall_inv in B. split; intros h a ->; cbn [named_categories] in B; destruct B as [B1 B2]; apply fold_and in B2.
    - split; [intros w H; apply A; cbn [flat_map]; apply in_or_app; now right|]. split; [exact B2|].
      split; [intro H; apply C; cbn [flat_map]; apply in_or_app; now right|]. intros l k b H. apply P. right. cbn [flat_map]. apply in_or_app. now right.
    - intro K. rewrite K in B1. split; [exact A|]. split; [now constructor|]. split; [exact C|]. intros l k b H. apply P. now right.
  Qed.
  Lemma okl_option e x k a : okl e -> In x e -> option_of x = Some (k, a) -> ~ banned k /\ okl a /\ plain_option W k a.
  Proof.
    intros O I Q. pose proof (okl_in e x O I) as O1.
    assert (P : plain_option W k a).
    { destruct x as [l|t|t]; try discriminate Q. apply (proj2 (proj2 (proj2 O1)) l k a); [|exact Q]. cbn. now left. }
    destruct x as [l|t|t]; try discriminate Q.
    destruct l as [|[y|t|t] l]; try discriminate Q; cbn [option_of] in Q; assert (t = k) as -> by congruence; assert (l = a) as -> by congruence;
      (split; [|split; [exact (proj1 (okl_one _ O1) _ _ eq_refl)|exact P]]); apply (proj1 O1); cbn; now left.
  Qed.
  Lemma okl_list l e : okl (EList l :: e) -> forall h a, l = h :: a -> okl a.
  Proof. intros O h a ->. exact (proj1 (okl_one _ (okl_in _ _ O (or_introl eq_refl))) _ _ eq_refl). Qed.

  (** Tables whose commands keep an invariant. *)
  Definition keep_if {S} (P : list expr -> Prop) (Inv : S -> Prop) (f : cmd S) : Prop :=
    forall a s, P a -> Inv s -> defined (f a s) /\ forall s', f a s = Ret s' -> Inv s'.
  Notation keep_cmd := (keep_if okl).
  Definition keep_table {S} (Inv : S -> Prop) (tbl : list (str * cmd S)) : Prop :=
    Forall (fun q => banned (fst q) \/ keep_if (fun a => okl a /\ plain_option W (fst q) a) Inv (snd q)) tbl.
  Lemma assoc_in_ {A} k (l : list (str * A)) f : assoc k l = Some f -> In (k, f) l.
  Proof.
    induction l as [|[k' v] l IH]; cbn [assoc]; [discriminate|]. destruct (str_eqb_spec k k') as [->|]; [|intro; right; auto].
    intro Q. left. congruence.
  Qed.
  Lemma entry_keep {S} (Inv : S -> Prop) tbl e : keep_table Inv tbl -> okl e ->
    forall x k a f s, In x e -> option_of x = Some (k, a) -> assoc k tbl = Some f -> Inv s ->
     defined (f a s) /\ forall s', f a s = Ret s' -> Inv s'.
  Proof.
    intros K O x k a f s I Q A V. destruct (okl_option e x k a O I Q) as (N & Oa & Pa). apply assoc_in_ in A.
    unfold keep_table in K. rewrite Forall_forall in K. destruct (K _ A) as [B|B]; [contradiction|]. now apply B.
  Qed.
  Lemma run_keep {S} (Inv : S -> Prop) tbl e s : keep_table Inv tbl -> okl e -> Inv s ->
    defined (run tbl e s) /\ forall s', run tbl e s = Ret s' -> Inv s'.
  Proof. intros K O V. apply run_safe; [|exact V]. now apply entry_keep. Qed.
  Lemma collect_keep {S} (Inv : S -> Prop) tbl e s : keep_table Inv tbl -> okl e -> Inv s ->
    defined (run_collect tbl e s) /\ forall s' r, run_collect tbl e s = Ret (s', r) -> Inv s'.
  Proof. intros K O V. apply collect_safe; [|exact V]. now apply entry_keep. Qed.
  Lemma options_keep_ {S} (Inv : S -> Prop) tbl e s s' : keep_table Inv tbl -> okl e -> Inv s -> options tbl e s = Ret s' -> Inv s'.
  Proof.
    intros K O V Q. unfold options in Q. apply bind_ret in Q. destruct Q as ([u r] & Q1 & Q2). injection Q2 as <-.
    exact (proj2 (collect_keep Inv tbl e s K O V) _ _ Q1).
  Qed.
  Lemma keep_app {S} (Inv : S -> Prop) a b : keep_table Inv a -> keep_table Inv b -> keep_table Inv (a ++ b).
  Proof. intros; apply Forall_app; now split. Qed.
  Lemma keep_nil {S} (Inv : S -> Prop) : keep_table Inv []. Proof. constructor. Qed.
  Lemma keep_cons {S} (Inv : S -> Prop) k f l : keep_cmd Inv f -> keep_table Inv l -> keep_table Inv ((k, f) :: l).
  Proof. intros K KS; constructor; [right; intros a s [O _]; now apply K|assumption]. Qed.
  Lemma keep_under {S} (Inv : S -> Prop) k f l : keep_if (fun a => okl a /\ plain_option W k a) Inv f -> keep_table Inv l -> keep_table Inv ((k, f) :: l).
  Proof. intros; constructor; [now right|assumption]. Qed.
  Lemma keep_ban {S} (Inv : S -> Prop) k f l : banned k -> keep_table Inv l -> keep_table Inv ((k, f) :: l).
  Proof. intros; constructor; [now left|assumption]. Qed.
  Lemma keep_upd {S X} (Inv : S -> Prop) (rd : list expr -> outcome X) (put : X -> S -> S) :
    (forall e, defined (rd e)) -> (forall v s, Inv s -> Inv (put v s)) -> keep_cmd Inv (upd rd put).
  Proof.
    intros D P a s _ V. unfold upd. split; [apply def_bind; [apply D|intros; apply def_ret]|]. intros s' Q.
    apply bind_ret in Q. destruct Q as (v & _ & Q). injection Q as <-. auto.
  Qed.
  Lemma keep_updf {S X} (Inv : S -> Prop) (get : S -> X) (rd : list expr -> X -> outcome X) (put : X -> S -> S) :
    (forall e v, defined (rd e v)) -> (forall v s, Inv s -> Inv (put v s)) -> keep_cmd Inv (updf get rd put).
  Proof.
    intros D P a s _ V. unfold updf. split; [apply def_bind; [apply D|intros; apply def_ret]|]. intros s' Q.
    apply bind_ret in Q. destruct Q as (v & _ & Q). injection Q as <-. auto.
  Qed.
  (** A reader of a part that has an invariant of its own. *)
  Lemma keep_part {S X} (Inv : S -> Prop) (J : X -> Prop) (get : S -> X) (rd : list expr -> X -> outcome X) (put : X -> S -> S) :
    keep_cmd J rd -> (forall s, Inv s -> J (get s)) -> (forall v s, Inv s -> J v -> Inv (put v s)) -> keep_cmd Inv (updf get rd put).
  Proof.
    intros D G P a s O V. unfold updf. destruct (D a (get s) O (G s V)) as [D1 D2]. split; [apply def_bind; [exact D1|intros; apply def_ret]|].
    intros s' Q. apply bind_ret in Q. destruct Q as (v & Q1 & Q). injection Q as <-. auto.
  Qed.
  Lemma keep_each {S} P (Inv : S -> Prop) (fs : list (cmd S)) : Forall (keep_if P Inv) fs -> keep_if P Inv (call_each fs).
  Proof.
    induction 1 as [|f fs F FS IH]; intros a s O V; cbn [call_each].
    - split; [apply def_ret|]. intros s' Q. injection Q as <-. exact V.
    - destruct (F a s O V) as [F1 F2]. split.
      + apply def_bind; [exact F1|]. intros s1 Q. now apply IH; [|apply F2].
      + intros s' Q. apply bind_ret in Q. destruct Q as (s1 & Q1 & Q). apply (proj2 (IH a s1 O (F2 _ Q1)) _ Q).
  Qed.

  (** Scales. *)
  Lemma fine_same s t : s_kind t = s_kind s -> s_categories t = s_categories s -> s_cmap t = s_cmap s -> fine s -> fine t.
  Proof. unfold fine. intros -> -> ->. auto. Qed.
  Lemma fine0 : fine scale0.
  Proof. split; [discriminate|]. split; [intro K; discriminate K|constructor]. Qed.
  Lemma is_val_word x e w : is_val (x :: e) (s_ w) = true -> In (s_ w) (atoms x).
  Proof.
    unfold is_val. destruct x as [l|t|t]; cbn [value_of]; try discriminate; destruct (str_eqb_spec t (s_ w)) as [->|]; try discriminate; intros _; now left.
  Qed.
  Lemma headed_word x e w a : list_headed (x :: e) (s_ w) = Some a -> exists h, x = EList (h :: a) /\ (h = ELit (s_ w) \/ h = EVal (s_ w)).
  Proof.
    unfold list_headed. destruct x as [l|t|t]; try discriminate. destruct l as [|[y|t|t] l]; try discriminate.
    all: cbn [value_of]; destruct (str_eqb_spec t (s_ w)) as [->|]; [|intro Q; discriminate Q]; intro Q; injection Q as <-; eauto.
  Qed.
  Lemma atoms_here (x : expr) e w : okl (x :: e) -> In w (atoms x) -> ~ banned w.
  Proof. intros O I. apply (proj1 O). cbn [flat_map]. apply in_or_app. now left. Qed.
  Lemma headed_in x e w a : list_headed (x :: e) (s_ w) = Some a -> In (s_ w) (atoms x).
  Proof. intro Q. apply headed_word in Q. destruct Q as (h & -> & [-> | ->]); now left. Qed.
  Lemma log_banned : banned (s_ "log") /\ banned (s_ "logarithmic").
  Proof. split; left; cbn; auto 6. Qed.
  Lemma words_tov a : forallb is_atom a = true -> exists ws, (forall acc, tov_loop expr_to_string a acc = (acc ++ ws, Ret tt)) /\ length ws = length a.
  Proof.
    induction a as [|x a IH]; cbn [forallb].
    - exists []. split; [intro acc; cbn; now rewrite app_nil_r|reflexivity].
    - intro H. apply andb_prop in H as [X H]. destruct (IH H) as (ws & Q & L). destruct x as [l|t|t]; [discriminate X|..].
      all: exists (t :: ws); (split; [|cbn; now rewrite L]); intro acc; cbn [tov_loop expr_to_string value_of]; rewrite Q; now rewrite <- app_assoc.
  Qed.
  Lemma kind_keep_ e : okl e -> forall s, fine s -> fine (fst (configure_kind (w_stod W) (w_read_file W) e s)).
  Proof.
    induction e as [|x e IH]; intros O s F; cbn [configure_kind]; [exact F|].
    pose proof (IH (okl_tail x e O)) as IH'.
    destruct (is_val (x :: e) (s_ "linear")).
    { apply IH'. destruct F as (F1 & F2 & F3). split; [discriminate|]. split; [intro K; discriminate K|exact F3]. }
    destruct (is_val (x :: e) (s_ "log")) eqn:L1.
    { exfalso. apply is_val_word in L1. exact (atoms_here _ _ _ O L1 (proj1 log_banned)). }
    destruct (is_val (x :: e) (s_ "logarithmic")) eqn:L2.
    { exfalso. apply is_val_word in L2. exact (atoms_here _ _ _ O L2 (proj2 log_banned)). }
    cbn [orb].
    destruct (list_headed (x :: e) (s_ "log")) eqn:L3.
    { exfalso. apply headed_in in L3. exact (atoms_here _ _ _ O L3 (proj1 log_banned)). }
    destruct (list_headed (x :: e) (s_ "logarithmic")) eqn:L4.
    { exfalso. apply headed_in in L4. exact (atoms_here _ _ _ O L4 (proj2 log_banned)). }
    destruct (_ || _)%bool. { apply IH'. revert F. now apply fine_same. }
    destruct (is_val (x :: e) (s_ "categorical")) eqn:C1.
    { exfalso. destruct O as (_ & B & _). apply Forall_inv in B. destruct x as [l|t|t]; [discriminate C1|..]; unfold is_val in C1; cbn in B, C1; congruence. }
    destruct (list_headed (x :: e) (s_ "categorical")) as [a|] eqn:C2; [|exact F].
    assert (C : cat).
    { apply (proj1 (proj2 (proj2 O))). unfold says. cbn [flat_map]. apply in_or_app. left. exact (headed_in _ _ _ _ C2). }
    apply headed_word in C2. destruct C2 as (h & -> & HW).
    assert (NA : a <> [] /\ forallb is_atom a = true /\ (Z.of_nat (length a) < 2 ^ 53)%Z).
    { destruct O as (_ & B & _). apply Forall_inv in B. destruct HW as [-> | ->]; cbn [named_categories] in B; destruct B as [B _]; exact B. }
    destruct NA as (N1 & N2 & N3). destruct (words_tov a N2) as (ws & TW & LW).
    assert (DL : data_load_strings (w_read_file W) a (s_categories (set_categorical s)) = (ws, Ret tt)).
    { unfold data_load_strings. replace (list_headed a (s_ "csv")) with (@None (list expr)).
      - unfold expr_to_strings, expr_tov. now rewrite TW.
      - symmetry. destruct a as [|[l|t|t] a]; [reflexivity|discriminate N2|reflexivity..]. }
    rewrite DL. cbn [fst]. apply IH'. destruct F as (F1 & F2 & F3). split; [discriminate|].
    split; cbn [index_categories set_categories set_categorical s_kind s_categories s_cmap].
    - intros _. split; [exact C|]. rewrite LW. split; [|exact N3]. destruct ws; [destruct a; [congruence|discriminate LW]|discriminate].
    - apply number_bound; [exact F3|]. rewrite LW. lia.
  Qed.
  Lemma kind_keep : keep_cmd fine (rd_kind W).
  Proof.
    intros a s O F. split; [apply d_kind|]. intros s' Q. unfold rd_kind in Q. apply ended_fst in Q. subst s'. now apply kind_keep_.
  Qed.
  Lemma limits_fine : keep_cmd fine (rd_limits W).
  Proof.
    intros a s O F. split; [apply d_limits|]. unfold rd_limits. intros s' Q.
    destruct (ended _) as [[[x|] [y|]]| | | |]; try discriminate. injection Q as <-. revert F. now apply fine_same.
  Qed.
  Lemma float_fine (put : xr -> scale -> scale) :
    (forall v s, s_kind (put v s) = s_kind s /\ s_categories (put v s) = s_categories s /\ s_cmap (put v s) = s_cmap s) ->
    keep_cmd fine (fun e s => let* v := rd_float W e in Ret (put v s)).
  Proof.
    intros P a s O F. split; [apply def_bind; [apply d_float|intros; apply def_ret]|]. intros s' Q. apply bind_ret in Q. destruct Q as (v & _ & Q).
    injection Q as <-. destruct (P v s) as (P1 & P2 & P3). revert F. now apply fine_same.
  Qed.
  Lemma scale_options_keep axis : keep_table fine (scale_options W axis).
  Proof.
    unfold scale_options. repeat apply keep_cons; try apply keep_nil; first [apply limits_fine|apply kind_keep|apply float_fine; intros; now split].
  Qed.
  Lemma firstn_keep {S} (Inv : S -> Prop) n tbl : keep_table Inv tbl -> keep_table Inv (firstn n tbl).
  Proof. intro K. apply Forall_forall. intros q I. unfold keep_table in K. exact (Forall_firstn_in _ n tbl K q I). Qed.
  Definition plot_fine (p : plot) : Prop := fine (p_sx p) /\ fine (p_sy p).
  Lemma scales_ok p e : okl e -> plot_fine p -> scales_usable W p e.
  Proof.
    intros O [FX FY]. split; intros s Q; apply fine_usable; eapply options_keep_; try exact Q; auto; apply scale_options_keep.
  Qed.
  Lemma scale_entries_keep {S} (Inv : S -> Prop) gx gy px (py : scale -> S -> S) :
    (forall s, Inv s -> fine (gx s) /\ fine (gy s)) -> (forall v s, Inv s -> fine v -> Inv (px v s) /\ Inv (py v s)) ->
    keep_table Inv (scale_entries W gx gy px py).
  Proof.
    intros G P. unfold scale_entries.
    repeat apply keep_cons; try apply keep_nil;
      (eapply (keep_part Inv fine); [|intros s V; now apply G|intros v s V J; now apply P]);
      first [apply limits_fine|apply kind_keep|apply float_fine; intros; now split].
  Qed.
  (** Fitting keeps the kind and the categories. *)
  Lemma fit_same vs : forall s, fine s -> fine (fit_values vs s).
  Proof.
    unfold fit_values. induction vs as [|v vs IH]; intros s F; cbn [fold_left]; [exact F|]. apply IH.
    revert F. apply fine_same; unfold fit; destruct s; cbn; repeat (match goal with |- context [match ?x with _ => _ end] => destruct x end); reflexivity.
  Qed.
End Modest.
