(** Blocks of calls that give back what they make. *)
From Coq Require Import Lia Arith.
From Verif Require Import Base Release_Model Release_Spec.

Definition below (n : nat) (l : list object) : Prop := Forall (fun o => o_id o < n)%nat l.
(** Nothing but faces needs an object from before: what is needed is older. *)
Definition older (l : list object) : Prop := Forall (fun o => match needs (o_kind o) with Some j => (j < o_id o)%nat | None => True end) l.

Lemma calls_app l a b : calls l (a ++ b) = match calls l a with Some l' => calls l' b | None => None end.
Proof. revert l. induction a as [|e a IH]; intro l; cbn [app calls]; [reflexivity|]. destruct (call l e); [apply IH|reflexivity]. Qed.
Lemma below_le n m l : (n <= m)%nat -> below n l -> below m l.
Proof. intros H. apply Forall_impl. intros. lia. Qed.
Lemma exists_below n l i : below n l -> (n <= i)%nat -> exists_ l i = false.
Proof.
  intros B H. unfold exists_. apply Bool.not_true_iff_false. intro X. apply existsb_exists in X. destruct X as (o & I & Q).
  apply Nat.eqb_eq in Q. unfold below in B. rewrite Forall_forall in B. specialize (B o I). lia.
Qed.
Lemma needed_below n l i : below n l -> older l -> (n <= i)%nat -> needed l i = false.
Proof.
  intros B O H. unfold needed. apply Bool.not_true_iff_false. intro X. apply existsb_exists in X. destruct X as (o & I & Q).
  unfold below, older in *. rewrite Forall_forall in B, O. specialize (B o I). specialize (O o I). destruct (needs (o_kind o)); [|discriminate].
  apply Nat.eqb_eq in Q. lia.
Qed.
Lemma gone_below n l i : below n l -> (n <= i)%nat -> gone i l = l.
Proof.
  intros B H. induction B as [|o l X B IH]; cbn [gone filter]; [reflexivity|]. fold (gone i l).
  destruct (Nat.eqb_spec (o_id o) i); [lia|]. cbn [negb]. now rewrite IH.
Qed.
Lemma change_below n l i f : below n l -> (n <= i)%nat -> change_owners f i l = l.
Proof.
  intros B H. induction B as [|o l X B IH]; cbn [change_owners map]; [reflexivity|]. fold (change_owners f i l).
  destruct (Nat.eqb_spec (o_id o) i); [lia|]. now rewrite IH.
Qed.
Lemma exists_in l i : exists_ l i = true <-> exists o, In o l /\ o_id o = i.
Proof.
  unfold exists_. rewrite existsb_exists. split; intros (o & I & Q); exists o; (split; [exact I|]); [now apply Nat.eqb_eq|now apply Nat.eqb_eq].
Qed.
Ltac ids := repeat first
  [ rewrite Nat.eqb_refl
  | match goal with |- context [(?a =? ?b)%nat] => first [rewrite (proj2 (Nat.eqb_neq a b)) by lia | rewrite (proj2 (Nat.eqb_eq a b)) by lia] end ].
Ltac old := repeat first
  [ match goal with B : below ?n ?l |- context [exists_ ?l ?i] => rewrite (exists_below n l i B) by lia end
  | match goal with B : below ?n ?l, O : older ?l |- context [needed ?l ?i] => rewrite (needed_below n l i B O) by lia end
  | match goal with B : below ?n ?l |- context [gone ?i ?l] => rewrite (gone_below n l i B) by lia end
  | match goal with B : below ?n ?l |- context [change_owners ?f ?i ?l] => rewrite (change_below n l i f B) by lia end
  | match goal with U : exists_ ?l ?i = true |- context [exists_ ?l ?i] => rewrite U end ].
Lemma exists_cons o l i : exists_ (o :: l) i = ((o_id o =? i)%nat || exists_ l i)%bool.
Proof. reflexivity. Qed.
Lemma needed_cons o l i : needed (o :: l) i = ((match needs (o_kind o) with Some j => (j =? i)%nat | None => false end) || needed l i)%bool.
Proof. reflexivity. Qed.
Lemma gone_cons o l i : gone i (o :: l) = if (o_id o =? i)%nat then gone i l else o :: gone i l.
Proof. unfold gone. cbn [filter]. now destruct (o_id o =? i)%nat. Qed.
Lemma change_cons f i o l : change_owners f i (o :: l) = (if (o_id o =? i)%nat then mk_object (o_id o) (o_kind o) (f (o_owners o)) else o) :: change_owners f i l.
Proof. reflexivity. Qed.
(** The state of the calls after one more call. *)
Ltac one_call := cbn [calls call needs o_id o_kind o_owners find app];
  repeat first [rewrite exists_cons | rewrite needed_cons | rewrite gone_cons | rewrite change_cons];
  cbn [o_id o_kind o_owners needs orb]; ids; old; cbn [orb negb Nat.leb pred].
Ltac run_calls := repeat progress one_call.

Section Block.
  Variable n : nat.
  Variable l : list object.
  Hypothesis B : below n l.
  Hypothesis O : older l.

  Lemma load_fails init new : snd (font_load n init new) = None -> calls l (fst (font_load n init new)) = Some l.
  Proof. unfold font_load. destruct init, new; cbn [snd fst]; intro; try discriminate; unfold font_close; cbn [fs_ft fs_face]; run_calls; reflexivity. Qed.
  Lemma load_works init new s : snd (font_load n init new) = Some s ->
    s = mk_storage (Some n) (Some (S n)) /\
    calls l (fst (font_load n init new)) = Some (mk_object (S n) (Face n) 1 :: mk_object n Library 1 :: l).
  Proof. unfold font_load. destruct init, new; cbn [snd fst]; intro Q; try discriminate. injection Q as <-. split; [reflexivity|]. run_calls. reflexivity. Qed.

  Variable face : nat.
  Hypothesis U : exists_ l face = true.
  Lemma face_old : (face < n)%nat.
  Proof. apply exists_in in U. destruct U as (o & I & <-). unfold below in B. rewrite Forall_forall in B. now apply B. Qed.
  Lemma shape_back ok : calls l (shape_run n face ok) = Some l.
  Proof. pose proof face_old. unfold shape_run. destruct ok; run_calls; reflexivity. Qed.
  Lemma glyph_back g : calls l (glyph_path n face g) =
    Some (match g with NotOutline | BadTag => [mk_object n Glyph 1] | _ => [] end ++ l).
  Proof. pose proof face_old. unfold glyph_path. destruct g; run_calls; reflexivity. Qed.
End Block.

(** A page: the context holds one face at a time. *)
Definition holding (cur : option nat) (faces : list nat) (l base : list object) (ctx : nat) : Prop :=
  match cur with
  | None => l = base
  | Some c => exists f, In f faces /\ (ctx < c)%nat /\ l = mk_object c (CairoFace f) 1 :: base
  end.
Lemma groups_back n l groups : below n l -> older l ->
  (forall it, In it groups -> exists_ l (fst it) = true /\ snd it = true) ->
  let base := mk_object (S n) (Context n) 1 :: mk_object n Surface 1 :: l in
  forall cur m live, (S n < m)%nat -> match cur with Some c => (S n < c < m)%nat | None => True end ->
    (match cur with None => live = base | Some c => exists f, (f < n)%nat /\ live = mk_object c (CairoFace f) 1 :: base end) ->
  exists live', calls live (fst (draw_groups (S n) cur m groups)) = Some live' /\
    match snd (draw_groups (S n) cur m groups) with
    | None => live' = base
    | Some c => (S n < c)%nat /\ exists f, (f < n)%nat /\ live' = mk_object c (CairoFace f) 1 :: base
    end.
Proof.
  intros B O G base. induction groups as [|[face ok] groups IH]; intros cur m live M C H.
  - exists live. cbn [draw_groups fst snd]. split; [reflexivity|]. destruct cur; [split; [lia|exact H]|exact H].
  - destruct (G (face, ok) (or_introl eq_refl)) as [U K]. cbn [fst snd] in U, K. subst ok.
    assert (FO : (face < n)%nat) by (eapply face_old; eauto).
    assert (G' : forall it, In it groups -> exists_ l (fst it) = true /\ snd it = true) by (intros; apply G; now right).
    specialize (IH G' (Some m) (S (S m)) (mk_object m (CairoFace face) 1 :: base) ltac:(lia) ltac:(cbn; lia) ltac:(exists face; now split)).
    cbn [draw_groups]. destruct (draw_groups (S n) (Some m) (S (S m)) groups) as [e c] eqn:D. cbn [fst snd] in IH |- *.
    destruct IH as (live' & IH1 & IH2). exists live'. split; [|exact IH2]. rewrite <- IH1. rewrite !app_assoc, calls_app.
    destruct cur as [c0|].
    + destruct H as (f0 & F0 & ->). unfold base. run_calls. reflexivity.
    + subst live. unfold base. run_calls. reflexivity.
Qed.
Lemma page_back n l groups : below n l -> older l ->
  (forall it, In it groups -> exists_ l (fst it) = true /\ snd it = true) -> calls l (export_page n groups) = Some l.
Proof.
  intros B O G. unfold export_page. destruct (groups_back n l groups B O G None (S (S n)) _ ltac:(lia) I eq_refl) as (live & H1 & H2).
  destruct (draw_groups (S n) None (S (S n)) groups) as [e c]. cbn [fst snd] in *.
  rewrite calls_app.
  assert (Q : calls l [Create n Surface; Create (S n) (Context n); Use (S n)] = Some (mk_object (S n) (Context n) 1 :: mk_object n Surface 1 :: l)) by (run_calls; reflexivity).
  rewrite Q, calls_app, H1. destruct c as [c|].
  - destruct H2 as (C & f & F & ->). run_calls. reflexivity.
  - subst live. run_calls. reflexivity.
Qed.

Lemma lookup_back n l a : below n l -> older l -> fc_config a = true -> fc_pattern a = true ->
  calls l (fst (lookup_font n a)) =
  Some (match fc_font a with Some (false, _) => [mk_object (2 + n) Pattern 1] | _ => [] end ++ l).
Proof.
  intros B O C P. unfold lookup_font. rewrite C, P. unfold use_or_null. destruct (fc_font a) as [[[|] f]|]; cbn [fst Nat.add]; run_calls; reflexivity.
Qed.
Lemma calls_uses l i k : exists_ l i = true -> calls l (repeat (Use i) k) = Some l.
Proof. intro U. induction k as [|k IH]; cbn [repeat calls call]; [reflexivity|]. rewrite U. exact IH. Qed.
Lemma list_back n l set : below n l -> older l ->
  calls l (list_fonts n true true set) = Some (mk_object (1 + n) ObjectSet 1 :: l).
Proof.
  intros B O. unfold list_fonts, use_or_null. cbn [Nat.add]. destruct set as [k|]; [|run_calls; reflexivity].
  match goal with |- calls l ?e = _ => change e with
    ([Create n Config; Create (S n) ObjectSet; Create (S (S n)) Pattern; Use (S (S n)); Use (S (S n)); Use (S (S n)); Create (S (S (S n))) FontSet] ++
     (repeat (Use (S (S (S n)))) k ++ [Release (S (S (S n)))]) ++ [Release (S (S n)); Release n]) end.
  rewrite calls_app.
  assert (Q : calls l [Create n Config; Create (S n) ObjectSet; Create (S (S n)) Pattern; Use (S (S n)); Use (S (S n)); Use (S (S n)); Create (S (S (S n))) FontSet] =
    Some (mk_object (S (S (S n))) FontSet 1 :: mk_object (S (S n)) Pattern 1 :: mk_object (S n) ObjectSet 1 :: mk_object n Config 1 :: l)) by (run_calls; reflexivity).
  rewrite Q, calls_app, calls_app, calls_uses by (rewrite exists_cons; cbn [o_id]; ids; reflexivity). run_calls. reflexivity.
Qed.
