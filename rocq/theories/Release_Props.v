(** Claim C115: the objects of the font and graphics libraries are used only while they exist, and given back
    exactly once. *)
From Coq Require Import Lia Arith.
From Verif Require Import Base Release_Model Release_Spec Release_Proofs Release_Proofs2.

(** Every history of loading, copying, dropping and using fonts makes only calls that are allowed: nothing is used
    after it has been given back, nothing is given back twice or before what was made from it. The fonts that are
    still referred to are open. *)
Theorem C115_calls_partial : forall (ops : list op), Forall usual ops ->
  exists l, calls [] (fst (history start ops)) = Some l /\
    forall i f, held (snd (history start ops)) i = Some f -> exists_ l (r_face f) = true /\ exists_ l (r_lib f) = true.
Proof.
  intros ops F. destruct (history_inv (fun _ => True) ops F) with (s := start) (l := @nil object) as (l & C & _ & I).
  - apply Forall_forall. intros; exact Logic.I.
  - apply inv_start.
  - exists l. split; [exact C|]. intros i f H. apply held_in in H. destruct (i_held _ _ _ I f H) as [A B].
    split; apply exists_in; [exists (face_of f)|exists (lib_of f)]; now split.
Qed.
Print Assumptions C115_calls_partial.

(** A font that nobody refers to any more is closed, and everything else is given back at the end of the call, if
    the answers of the libraries are such that nothing is left behind. *)
Theorem C115_released_partial : forall (ops : list op), Forall usual ops -> Forall tidy ops ->
  exists l, calls [] (fst (history start ops)) = Some l /\
    (forall o, In o l -> exists i f, held (snd (history start ops)) i = Some f /\ (o_id o = r_lib f \/ o_id o = r_face f)) /\
    (all_dropped (snd (history start ops)) -> l = []).
Proof.
  intros ops F T. destruct (history_inv (fun _ => False) ops F) with (s := start) (l := @nil object) as (l & C & _ & I).
  - eapply Forall_impl; [|exact T]. intros o TO k L. destruct o; cbn in *; try contradiction.
    + destruct g, k; try contradiction; now destruct TO.
    + destruct k; try contradiction. destruct L as (file & L). exact (TO file L).
  - apply inv_start.
  - exists l. split; [exact C|]. assert (H : forall o, In o l -> exists i f, held (snd (history start ops)) i = Some f /\ (o_id o = r_lib f \/ o_id o = r_face f)).
    { intros o J. destruct (i_rest _ _ _ I o J) as [(r & K & Q)|(_ & _ & [])]. apply In_nth_error in K. destruct K as (i & K). exists i, r.
      split; [unfold held; now rewrite K|]. destruct Q as [-> | ->]; [now left|now right]. }
    split; [exact H|]. intro D. destruct l as [|o l]; [reflexivity|]. destruct (H o (or_introl eq_refl)) as (i & f & X & _). rewrite D in X. discriminate.
Qed.
Print Assumptions C115_released_partial.

(** What is left behind otherwise is only object sets, glyphs and patterns, and one object set for each time the
    default fonts are listed. *)
Theorem C115_left : forall (ops : list op), Forall usual ops ->
  exists l, calls [] (fst (history start ops)) = Some l /\
    (all_dropped (snd (history start ops)) -> forall o, In o l -> o_kind o = ObjectSet \/ o_kind o = Glyph \/ o_kind o = Pattern) /\
    length (filter (fun o => match o_kind o with ObjectSet => true | _ => false end) l) = length (filter is_defaults ops).
Proof.
  intros ops F. destruct (history_inv (fun k => k = ObjectSet \/ k = Glyph \/ k = Pattern) ops F) with (s := start) (l := @nil object) as (l & C & S & I).
  - apply Forall_forall. intros o _ k L. destruct o; cbn in L; try contradiction.
    + destruct g, k; tauto.
    + destruct k; tauto.
    + destruct k; tauto.
  - apply inv_start.
  - exists l. split; [exact C|]. split.
    + intros D o J. destruct (i_rest _ _ _ I o J) as [(r & K & _)|(_ & _ & X)]; [|exact X]. exfalso. apply In_nth_error in K. destruct K as (i & K).
      specialize (D i). unfold held in D. rewrite K in D. discriminate.
    + cbn in S. rewrite Nat.add_0_r in S. exact S.
Qed.
Print Assumptions C115_left.

(** A history with three fonts, shared references, texts, outlines, a page and a pattern that is looked up. *)
Definition busy : list op :=
  [Load true true; Copy 0; Load true false; Load true true; Shape 1 true; Outline 0 GoodOutline; Drop 0; Page [(1, true); (2, true); (1, true)];
   Best (mk_fc true true (Some (true, true))) true true; Best (mk_fc true true (Some (true, false))) true true; Shape 3 false; Drop 1; Drop 2; Drop 3].
Theorem C115_case : Forall usual busy /\ Forall tidy busy /\ all_dropped (snd (history start busy)) /\
  calls [] (fst (history start busy)) = Some [] /\ (40 < length (fst (history start busy)))%nat.
Proof.
  split; [|split; [|split; [|split]]].
  - repeat (apply Forall_cons; [cbn; try exact I; try (now split); intros it H; repeat (destruct H as [<-|H]; [reflexivity|]); destruct H|]). apply Forall_nil.
  - repeat (apply Forall_cons; [cbn; try exact I; try (now split); intros; discriminate|]). apply Forall_nil.
  - intro i. change (refs (snd (history start busy))) with [@None font_ref; None; None; None]. do 5 (destruct i as [|i]; [reflexivity|]). reflexivity.
  - reflexivity.
  - vm_compute. lia.
Qed.
Print Assumptions C115_case.

(** ---- what is not true ---- *)
(** If the size of a font cannot be set while a page is drawn, the face is given back although the font still owns
    it: whatever happened before, dropping the last reference then gives it back a second time. *)
Theorem C115_size_refuted : forall (ops : list op), Forall usual ops ->
  let n := length (refs (snd (history start ops))) in
  calls [] (fst (history start (ops ++ [Load true true; Page [(n, false)]; Drop n]))) = None.
Proof.
  intros ops F n. destruct (history_inv (fun _ => True) ops F) with (s := start) (l := @nil object) as (l & C & _ & I).
  { apply Forall_forall. intros; exact Logic.I. } { apply inv_start. }
  assert (HA : forall a b s, fst (history s (a ++ b)) = fst (history s a) ++ fst (history (snd (history s a)) b)).
  { induction a as [|o a IH]; intros b s; [reflexivity|]. cbn [app history]. destruct (do_op s o) as [e s1]. specialize (IH b s1).
    destruct (history s1 (a ++ b)), (history s1 a). cbn [fst snd] in *. rewrite IH. apply app_assoc. }
  rewrite HA, calls_app, C. clear C HA. subst n. destruct (snd (history start ops)) as [rs nx]. cbn [refs].
  pose proof (i_below _ _ _ I) as B. pose proof (i_older _ _ _ I) as O. cbn [next] in B.
  assert (HN : forall x, nth_error (rs ++ [x]) (length rs) = Some x) by (intro x; rewrite nth_error_app2, Nat.sub_diag by lia; reflexivity).
  set (r := Some (mk_ref nx (S nx))) in *.
  assert (NB : forall k, existsb (same (mk_ref nx (S nx))) (clear k rs) = false).
  { intro k. apply Bool.not_true_iff_false. intro X. apply existsb_exists in X. destruct X as ([g|] & J & Q); [|discriminate]. cbn in Q. apply Nat.eqb_eq in Q.
    apply clear_in in J. destruct (i_held _ _ _ I g J) as [_ K]. unfold below in B. rewrite Forall_forall in B. specialize (B _ K). cbn in B. lia. }
  assert (CL : forall x, clear (length rs) (rs ++ [x]) = rs ++ [None]) by (intro x; clear; induction rs as [|y rs IH]; cbn; [reflexivity|now rewrite IH]).
  assert (EX : existsb (same (mk_ref nx (S nx))) (clear (length rs) (rs ++ [r])) = false).
  { rewrite CL. rewrite existsb_app. cbn [existsb same orb]. rewrite Bool.orb_false_r. specialize (NB (length rs)).
    replace (clear (length rs) rs) with rs in NB; [exact NB|]. clear. induction rs as [|y rs IH]; cbn; [reflexivity|now rewrite <- IH]. }
  cbn [history do_op loaded_ font_load ref_of fs_ft fs_face next refs app flat_map fst snd]. unfold held. cbn [refs]. rewrite HN. fold r. unfold r at 1. cbn [app r_face flat_map fst snd history].
  unfold r in EX. rewrite EX. cbn [fst snd r_lib r_face]. unfold font_close. cbn [fs_ft fs_face].
  unfold export_page. cbn [draw_groups Nat.add]. run_calls.
  assert (FN : find (fun o => o_id o =? S nx)%nat l = None).
  { pose proof (exists_below nx l (S nx) B ltac:(lia)) as X. clear - X. induction l as [|o l IH]; [reflexivity|]. rewrite exists_cons in X. cbn [find].
    destruct (o_id o =? S nx)%nat; [discriminate|]. apply IH. exact X. }
  rewrite FN. reflexivity.
Qed.
Print Assumptions C115_size_refuted.
(** Listing the default fonts leaves an object set behind each time. *)
Theorem C115_defaults_refuted : forall n : nat,
  exists l, calls [] (fst (history start (repeat (Defaults true true None) n))) = Some l /\ length l = n.
Proof.
  intro n. set (ops := repeat (Defaults true true None) n).
  assert (F : forall (P : op -> Prop), P (Defaults true true None) -> Forall P ops) by (intros P H; apply Forall_forall; intros o J; apply repeat_spec in J; now subst o).
  destruct (history_inv (fun k => k = ObjectSet) ops) with (s := start) (l := @nil object) as (l & C & S & I).
  - apply F. now split.
  - apply F. intros k L. destruct k; cbn in L; try contradiction. reflexivity.
  - apply inv_start.
  - exists l. split; [exact C|].
    assert (RF : forall s, refs s = [] -> refs (snd (history s ops)) = []).
    { unfold ops. clear. induction n as [|n IH]; intros s Q; cbn [repeat history]; [exact Q|]. cbn [do_op load_files].
      match goal with |- context [history ?a ?b] => specialize (IH a Q); destruct (history a b) end. exact IH. }
    assert (AL : filter is_set l = l).
    { assert (G : forall o, In o l -> is_set o = true).
      { intros o J. destruct (i_rest _ _ _ I o J) as [(r & K & _)|(_ & _ & X)]; [rewrite RF in K by reflexivity; destruct K|]. unfold is_set. now rewrite X. }
      clear - G. induction l as [|o l IH]; [reflexivity|]. cbn [filter]. rewrite (G o (or_introl eq_refl)), IH; [reflexivity|]. intros; apply G; now right. }
    unfold sets in S. rewrite AL in S. rewrite S. cbn. rewrite Nat.add_0_r. unfold ops. clear. induction n as [|n IH]; cbn; [reflexivity|now rewrite IH].
Qed.
Print Assumptions C115_defaults_refuted.
(** A glyph that is not an outline, or has an unknown point, is left behind. *)
Theorem C115_glyph_refuted : exists l, calls [] (fst (history start [Load true true; Outline 0 NotOutline; Outline 0 BadTag; Drop 0])) = Some l /\
  map o_kind l = [Glyph; Glyph].
Proof. eexists. split; reflexivity. Qed.
Print Assumptions C115_glyph_refuted.
(** A pattern that fontconfig cannot parse, or a missing configuration, makes it use a null pointer, in every state. *)
Theorem C115_null_refuted : forall (n : nat) (l : list object) (a : fc_answer),
  fc_config a = false \/ fc_pattern a = false -> calls l (fst (lookup_font n a)) = None.
Proof.
  intros n l a H. assert (N : forall es l, In Null es -> calls l es = None).
  { induction es as [|e es IH]; intros m I; [destruct I|]. cbn [calls]. destruct I as [->|I]; [reflexivity|]. destruct (call m e); [now apply IH|reflexivity]. }
  apply N. unfold lookup_font. cbn [fst]. rewrite !in_app_iff. destruct H as [-> | ->].
  - do 5 right. now left.
  - right. right. left. now left.
Qed.
Print Assumptions C115_null_refuted.
