(** The invariant of a history: what exists is what the references hold, and what has been left behind. *)
From Coq Require Import Lia Arith.
From Verif Require Import Base Release_Model Release_Spec Release_Proofs.

Definition lib_of (r : font_ref) : object := mk_object (r_lib r) Library 1.
Definition face_of (r : font_ref) : object := mk_object (r_face r) (Face (r_lib r)) 1.
Definition is_set (o : object) : bool := match o_kind o with ObjectSet => true | _ => false end.
Definition sets (l : list object) : nat := length (filter is_set l).
Record inv (left : kind -> Prop) (s : state) (l : list object) : Prop := {
  i_below : below (next s) l;
  i_older : older l;
  i_once : NoDup (map o_id l);
  i_held : forall r, In (Some r) (refs s) -> In (lib_of r) l /\ In (face_of r) l;
  i_libs : forall r r', In (Some r) (refs s) -> In (Some r') (refs s) -> r_lib r = r_lib r' -> r = r';
  i_rest : forall o, In o l -> (exists r, In (Some r) (refs s) /\ (o = lib_of r \/ o = face_of r)) \/
                               (needs (o_kind o) = None /\ o_kind o <> Library /\ left (o_kind o)) }.

Lemma held_in s i r : held s i = Some r -> In (Some r) (refs s).
Proof. unfold held. destruct (nth_error (refs s) i) eqn:N; [|discriminate]. intros ->. now apply nth_error_In in N. Qed.
Lemma once_eq (l : list object) o p : NoDup (map o_id l) -> In o l -> In p l -> o_id o = o_id p -> o = p.
Proof.
  induction l as [|x l IH]; cbn [map In]; intros N I J Q; [contradiction|]. inversion N as [|y z N1 N2]; subst.
  destruct I as [->|I], J as [->|J]; auto; exfalso; apply N1; [rewrite Q|rewrite <- Q]; now apply in_map.
Qed.
Lemma find_id l o : NoDup (map o_id l) -> In o l -> find (fun x => o_id x =? o_id o)%nat l = Some o.
Proof.
  intros N I. destruct (find (fun x => o_id x =? o_id o)%nat l) as [p|] eqn:F.
  - apply find_some in F. destruct F as [J Q]. apply Nat.eqb_eq in Q. f_equal. now apply (once_eq l).
  - pose proof (find_none _ _ F o I) as X. cbn in X. rewrite Nat.eqb_refl in X. discriminate.
Qed.
Lemma gone_in i l o : In o (gone i l) <-> In o l /\ o_id o <> i.
Proof. unfold gone. rewrite filter_In, Bool.negb_true_iff, Nat.eqb_neq. reflexivity. Qed.
Lemma gone_once i l : NoDup (map o_id l) -> NoDup (map o_id (gone i l)).
Proof.
  induction l as [|x l IH]; cbn [map]; intro N; [constructor|]. inversion N as [|y z N1 N2]; subst. rewrite gone_cons.
  destruct (o_id x =? i)%nat; [auto|]. cbn [map]. constructor; [|auto]. intro X. apply N1. apply in_map_iff in X. destruct X as (o & Q & I).
  apply gone_in in I. rewrite <- Q. apply in_map. tauto.
Qed.
Lemma gone_forall (P : object -> Prop) i l : Forall P l -> Forall P (gone i l).
Proof. rewrite !Forall_forall. intros F o I. apply gone_in in I. apply F. tauto. Qed.
Lemma released l o : NoDup (map o_id l) -> In o l -> o_owners o = 1%nat -> needed l (o_id o) = false -> call l (Release (o_id o)) = Some (gone (o_id o) l).
Proof. intros N I W D. cbn [call]. rewrite (find_id l o N I), W. cbn [Nat.leb]. now rewrite D. Qed.
Lemma not_needed l i : (forall o, In o l -> needs (o_kind o) <> Some i) -> needed l i = false.
Proof.
  intro H. unfold needed. apply Bool.not_true_iff_false. intro X. apply existsb_exists in X. destruct X as (o & I & Q). specialize (H o I).
  destruct (needs (o_kind o)) as [j|]; [|discriminate]. apply Nat.eqb_eq in Q. congruence.
Qed.
Lemma clear_in i l : forall r, In (Some r) (clear i l) -> In (Some r) l.
Proof.
  revert i. induction l as [|x l IH]; intros [|i] r; cbn [clear In]; try tauto; [|intros [H|H]; auto].
  - intros [H|H]; [discriminate|now right].
  - right. eauto.
Qed.
Lemma clear_other i l r f : nth_error l i = Some (Some f) -> In (Some r) l -> r <> f -> In (Some r) (clear i l).
Proof.
  revert i. induction l as [|x l IH]; intros [|i] N I D; cbn [clear In nth_error] in *; try discriminate.
  - destruct I as [I|I]; [congruence|now right].
  - destruct I as [I|I]; [now left|right; eauto].
Qed.

(** A block that gives back everything but [new], which nobody needs. *)
Lemma inv_left left s l new n : inv left s l -> (next s <= n)%nat -> below n (new ++ l) -> NoDup (map o_id (new ++ l)) ->
  Forall (fun o => needs (o_kind o) = None /\ o_kind o <> Library /\ left (o_kind o)) new -> inv left (mk_state (refs s) n) (new ++ l).
Proof.
  intros [B O N H LB R] LE BN NN F. split; cbn [refs next]; auto.
  - apply Forall_app. split; [|exact O]. eapply Forall_impl; [|exact F]. intros o (Q & _). now rewrite Q.
  - intros r I. destruct (H r I). split; apply in_or_app; now right.
  - intros o I. apply in_app_or in I. destruct I as [I|I]; [|auto]. right. rewrite Forall_forall in F. now apply F.
Qed.
Lemma inv_same left s l n : inv left s l -> (next s <= n)%nat -> inv left (mk_state (refs s) n) l.
Proof. intros I LE. apply (inv_left left s l [] n I LE); [eapply below_le; [exact LE|apply I]|apply I|constructor]. Qed.
Lemma face_exists left s l i f : inv left s l -> held s i = Some f -> exists_ l (r_face f) = true.
Proof. intros I H. apply exists_in. exists (face_of f). split; [apply I; now apply held_in in H|reflexivity]. Qed.
Lemma below_fresh n l i : below n l -> (n <= i)%nat -> ~ In i (map o_id l).
Proof. intros B H X. apply in_map_iff in X. destruct X as (o & <- & I). unfold below in B. rewrite Forall_forall in B. specialize (B o I). lia. Qed.

Lemma inv_loaded left s l : inv left s l ->
  inv left (mk_state (refs s ++ [Some (mk_ref (next s) (S (next s)))]) (2 + next s))
    (mk_object (S (next s)) (Face (next s)) 1 :: mk_object (next s) Library 1 :: l).
Proof.
  intros [B O N H LB R]. set (r0 := mk_ref (next s) (S (next s))).
  assert (OLD : forall r, In (Some r) (refs s) -> (r_lib r < next s)%nat).
  { intros r I. destruct (H r I) as [X _]. unfold below in B. rewrite Forall_forall in B. exact (B _ X). }
  split; cbn [refs next].
  - repeat (apply Forall_cons; [cbn; lia|]). eapply below_le; [|exact B]. lia.
  - repeat (apply Forall_cons; [cbn; lia|]). exact O.
  - cbn [map o_id]. constructor; [|constructor; [now apply (below_fresh (next s))|exact N]].
    intros [X|X]; [lia|]. revert X. apply (below_fresh (next s)); [exact B|lia].
  - intros r I. apply in_app_or in I. destruct I as [I|[I|[]]]; [destruct (H r I); split; now (right; right)|]. injection I as <-.
    split; [right; now left|now left].
  - intros r r' I J Q. apply in_app_or in I, J. destruct I as [I|[I|[]]], J as [J|[J|[]]]; auto.
    + injection J as <-. specialize (OLD r I). cbn in Q. lia.
    + injection I as <-. specialize (OLD r' J). cbn in Q. lia.
    + congruence.
  - intros o [<-|[<-|I]].
    + left. exists r0. split; [apply in_or_app; right; now left|now right].
    + left. exists r0. split; [apply in_or_app; right; now left|now left].
    + destruct (R o I) as [(r & J & Q)|X]; [|now right]. left. exists r. split; [apply in_or_app; now left|exact Q].
Qed.
Lemma load_inv left s l init new : inv left s l ->
  exists l', calls l (fst (font_load (next s) init new)) = Some l' /\ sets l' = sets l /\
    inv left (snd (loaded_ s (fst (font_load (next s) init new)) (snd (font_load (next s) init new)))) l'.
Proof.
  intro I. destruct (snd (font_load (next s) init new)) as [st|] eqn:Q.
  - destruct (load_works (next s) l (i_below _ _ _ I) init new st Q) as [-> C]. eexists. split; [exact C|]. split; [reflexivity|].
    unfold loaded_. cbn [snd ref_of fs_ft fs_face]. now apply inv_loaded.
  - exists l. split; [apply load_fails; try apply I; exact Q|]. split; [reflexivity|]. apply inv_same; [exact I|lia].
Qed.
Lemma files_inv left fs : forall s l, inv left s l ->
  exists l', calls l (fst (load_files s fs)) = Some l' /\ sets l' = sets l /\ inv left (snd (load_files s fs)) l'.
Proof.
  induction fs as [|[[init new]|] fs IH]; intros s l I; cbn [load_files].
  - exists l. now split.
  - destruct (load_inv left s l init new I) as (l1 & C1 & S1 & I1). destruct (font_load (next s) init new) as [e [st|]] eqn:L; cbn [fst snd] in *.
    + unfold loaded_ in *. cbn [snd] in I1. match goal with |- context [load_files ?s1 fs] => destruct (IH s1 l1 I1) as (l2 & C2 & S2 & I2); destruct (load_files s1 fs) as [e' s''] end.
      cbn [fst snd] in *. exists l2. rewrite calls_app, C1. split; [exact C2|]. split; [congruence|exact I2].
    + exists l1. now split.
  - apply IH. exact I.
Qed.

Definition leaves (o : op) (k : kind) : Prop :=
  match o, k with
  | Outline _ (NotOutline | BadTag), Glyph => True
  | Best a _ _, Pattern => exists file, fc_font a = Some (false, file)
  | Defaults _ _ _, ObjectSet => True
  | _, _ => False
  end.
Definition is_defaults (o : op) : bool := match o with Defaults _ _ _ => true | _ => false end.
Lemma drop_inv left s l i f : inv left s l -> held s i = Some f -> existsb (same f) (clear i (refs s)) = false ->
  exists l', calls l (font_close (mk_storage (Some (r_lib f)) (Some (r_face f)))) = Some l' /\ sets l' = sets l /\ inv left (mk_state (clear i (refs s)) (next s)) l'.
Proof.
  intros [B O N H LB R] HF D. assert (HI : In (Some f) (refs s)) by now apply held_in in HF.
  destruct (H f HI) as [HL HFc].
  assert (NS : forall r, In (Some r) (clear i (refs s)) -> r_face r <> r_face f).
  { intros r I Q. assert (X : existsb (same f) (clear i (refs s)) = true); [|congruence]. apply existsb_exists. exists (Some r). split; [exact I|]. cbn. now rewrite Q, Nat.eqb_refl. }
  assert (NE : nth_error (refs s) i = Some (Some f)) by (unfold held in HF; destruct (nth_error (refs s) i); congruence).
  assert (DIF : r_face f <> r_lib f).
  { intro Q. pose proof (once_eq l (lib_of f) (face_of f) N HL HFc (eq_sym Q)) as X. discriminate X. }
  assert (N1 : needed l (r_face f) = false).
  { apply not_needed. intros o I Q. destruct (R o I) as [(r & J & [-> | ->])|(X & _)]; [discriminate Q| |congruence]. cbn in Q. injection Q as Q.
    destruct (H r J) as [L1 _]. pose proof (once_eq l (lib_of r) (face_of f) N L1 HFc Q) as X. discriminate X. }
  pose proof (released l (face_of f) N HFc eq_refl N1) as C1. cbn [face_of o_id] in C1.
  set (l1 := gone (r_face f) l) in *. assert (HL1 : In (lib_of f) l1) by (apply gone_in; split; [exact HL|cbn; congruence]).
  assert (NN : NoDup (map o_id l1)) by now apply gone_once.
  assert (N2 : needed l1 (r_lib f) = false).
  { apply not_needed. intros o I Q. apply gone_in in I. destruct I as [I NF]. destruct (R o I) as [(r & J & [-> | ->])|(X & _)]; [discriminate Q| |congruence]. cbn in Q. injection Q as Q.
    assert (r = f) as -> by now apply LB. now apply NF. }
  pose proof (released l1 (lib_of f) NN HL1 eq_refl N2) as C2. cbn [lib_of o_id] in C2.
  exists (gone (r_lib f) l1). split.
  - unfold font_close. cbn [fs_ft fs_face app calls]. rewrite C1. cbn [calls]. now rewrite C2.
  - split.
    { assert (G : forall l j, (forall o, In o l -> o_id o = j -> is_set o = false) -> sets (gone j l) = sets l).
      { intros m j. induction m as [|x m IH]; intro X; [reflexivity|]. rewrite gone_cons. specialize (IH (fun o I => X o (or_intror I))). unfold sets in *.
        destruct (Nat.eqb_spec (o_id x) j) as [E|E]; cbn [filter]; [rewrite (X x (or_introl eq_refl) E); exact IH|]. destruct (is_set x); cbn [length]; congruence. }
      transitivity (sets l1); apply G.
      - intros o I Q. rewrite (once_eq l1 o (lib_of f) NN I HL1 Q). reflexivity.
      - intros o I Q. rewrite (once_eq l o (face_of f) N I HFc Q). reflexivity. }
    split; cbn [refs next].
    + now apply gone_forall, gone_forall.
    + now apply gone_forall, gone_forall.
    + now apply gone_once.
    + intros r I. pose proof (NS r I) as NF. apply clear_in in I. destruct (H r I) as [L1 F1].
      assert (NL : r_lib r <> r_lib f) by (intro Q; assert (r = f) as -> by (now apply LB); congruence).
      split; apply gone_in; (split; [apply gone_in; split; [assumption|]|]); cbn [lib_of face_of o_id]; auto.
      * intro Q. pose proof (once_eq l (lib_of r) (face_of f) N L1 HFc Q) as X. discriminate X.
      * intro Q. pose proof (once_eq l (face_of r) (lib_of f) N F1 HL Q) as X. discriminate X.
    + intros r r' I J. apply LB; now apply clear_in with i.
    + intros o I. apply gone_in in I. destruct I as [I NL]. apply gone_in in I. destruct I as [I NF]. destruct (R o I) as [(r & J & Q)|X]; [|now right].
      left. exists r. split; [|exact Q]. eapply clear_other; eauto. intros ->. destruct Q as [-> | ->]; [now apply NL|now apply NF].
Qed.
Lemma copy_inv left s l i : inv left s l -> inv left (mk_state (refs s ++ [held s i]) (next s)) l.
Proof.
  intros [B O N H LB R]. assert (S : forall r, In (Some r) (refs s ++ [held s i]) -> In (Some r) (refs s)).
  { intros r I. apply in_app_or in I. destruct I as [I|[I|[]]]; [exact I|now apply held_in in I]. }
  split; cbn [refs next]; auto. intros o I. destruct (R o I) as [(r & J & Q)|X]; [|now right]. left. exists r. split; [apply in_or_app; now left|exact Q].
Qed.
Lemma droplast_inv left s l i f : inv left s l -> held s i = Some f -> existsb (same f) (clear i (refs s)) = true ->
  inv left (mk_state (clear i (refs s)) (next s)) l.
Proof.
  intros [B O N H LB R] HF D. assert (HI : In (Some f) (refs s)) by now apply held_in in HF.
  assert (NE : nth_error (refs s) i = Some (Some f)) by (unfold held in HF; destruct (nth_error (refs s) i); congruence).
  assert (ST : In (Some f) (clear i (refs s))).
  { apply existsb_exists in D. destruct D as (x & I & Q). destruct x as [g|]; [|discriminate]. cbn in Q. apply Nat.eqb_eq in Q. pose proof (clear_in _ _ _ I) as J.
    destruct (H g J) as [_ F1], (H f HI) as [_ F2]. pose proof (once_eq l (face_of g) (face_of f) N F1 F2 Q) as X. injection X as _ X. assert (g = f) as <- by (now apply LB). exact I. }
  split; cbn [refs next]; auto.
  - intros r I. apply H. now apply clear_in with i.
  - intros r r' I J. apply LB; now apply clear_in with i.
  - intros o I. destruct (R o I) as [(r & J & Q)|X]; [|now right]. left. exists r. split; [|exact Q].
    destruct (Nat.eq_dec (r_lib r) (r_lib f)) as [E|E]; [assert (r = f) as -> by (now apply LB); exact ST|]. eapply clear_other; eauto. congruence.
Qed.
Lemma op_inv left s l o : inv left s l -> usual o -> (forall k, leaves o k -> left k) ->
  exists l', calls l (fst (do_op s o)) = Some l' /\ sets l' = ((if is_defaults o then 1 else 0) + sets l)%nat /\ inv left (snd (do_op s o)) l'.
Proof.
  intros I U LV. destruct o as [init new|i|i|i ok|i g|groups|a init new|config pattern set]; cbn [do_op is_defaults Nat.add].
  - destruct (load_inv left s l init new I) as (l' & C & S & I'). destruct (font_load (next s) init new) as [e f]. now exists l'.
  - exists l. split; [reflexivity|]. split; [reflexivity|]. now apply copy_inv.
  - destruct (held s i) as [f|] eqn:HF; [|now exists l]. destruct (existsb (same f) (clear i (refs s))) eqn:D; cbn [fst snd].
    + exists l. split; [reflexivity|]. split; [reflexivity|]. eapply droplast_inv; eauto.
    + now apply drop_inv.
  - destruct (held s i) as [f|] eqn:HF; [|now exists l]. exists l. cbn [fst snd]. split; [|split; [reflexivity|apply inv_same; [exact I|lia]]].
    apply shape_back; try apply I. eapply face_exists; eauto.
  - destruct (held s i) as [f|] eqn:HF; [|now exists l]. cbn [fst snd]. eexists. split; [apply glyph_back; try apply I; eapply face_exists; eauto|].
    assert (BL := i_below _ _ _ I). assert (X : below (1 + next s) (mk_object (next s) Glyph 1 :: l)) by (constructor; [cbn; lia|eapply below_le; [|exact BL]; lia]).
    assert (Y : NoDup (map o_id (mk_object (next s) Glyph 1 :: l))) by (cbn [map o_id]; constructor; [now apply (below_fresh (next s))|apply I]).
    destruct g; (split; [reflexivity|]); cbn [app]; try (apply inv_same; [exact I|lia]).
    all: apply (inv_left left s l [mk_object (next s) Glyph 1]); [exact I|lia|exact X|exact Y|constructor; [|constructor]]; cbn; repeat split; try discriminate; apply LV; exact Logic.I.
  - cbn [fst snd]. exists l. split; [|split; [reflexivity|apply inv_same; [exact I|lia]]]. apply page_back; try apply I.
    intros it J. apply in_flat_map in J. destruct J as (x & J & K). destruct (held s (fst x)) as [f|] eqn:HF; [|destruct K]. destruct K as [<-|[]].
    cbn [fst snd]. split; [eapply face_exists; eauto|now apply U].
  - destruct U as [U1 U2]. pose proof (lookup_back (next s) l a (i_below _ _ _ I) (i_older _ _ _ I) U1 U2) as C.
    set (new0 := match fc_font a with Some (false, _) => [mk_object (2 + next s) Pattern 1] | _ => [] end) in *.
    assert (I1 : inv left (mk_state (refs s) (3 + next s)) (new0 ++ l)).
    { unfold new0. assert (BL := i_below _ _ _ I). destruct (fc_font a) as [[[|] file]|] eqn:FC; cbn [app]; try (apply inv_same; [exact I|lia]).
      apply (inv_left left s l [mk_object (2 + next s) Pattern 1]); [exact I|lia| | |].
      - constructor; [cbn; lia|eapply below_le; [|exact BL]; lia].
      - cbn [map o_id app]. constructor; [apply (below_fresh (next s)); [exact BL|lia]|apply I].
      - constructor; [|constructor]. cbn. repeat split; try discriminate. apply LV. exists file. exact FC. }
    assert (S1 : sets (new0 ++ l) = sets l) by (unfold new0; destruct (fc_font a) as [[[|] ?]|]; reflexivity).
    destruct (lookup_font (next s) a) as [e found]. cbn [fst] in C. destruct found.
    + destruct (load_inv left _ _ init new I1) as (l' & C' & S' & I'). cbn [next] in C', I' |- *. change (3 + next s)%nat with (S (S (S (next s)))) in *.
      destruct (font_load (S (S (S (next s)))) init new) as [e' f]. cbn [fst snd] in *. exists l'. unfold loaded_ in *. cbn [fst snd] in *. rewrite calls_app, C. split; [exact C'|]. split; [congruence|exact I'].
    + exists (new0 ++ l). split; [exact C|]. split; [exact S1|exact I1].
  - destruct U as [-> ->]. pose proof (list_back (next s) l (option_map (@length _) set) (i_below _ _ _ I) (i_older _ _ _ I)) as C.
    assert (I1 : inv left (mk_state (refs s) (4 + next s)) (mk_object (1 + next s) ObjectSet 1 :: l)).
    { assert (BL := i_below _ _ _ I). apply (inv_left left s l [mk_object (1 + next s) ObjectSet 1]); [exact I|lia| | |].
      - constructor; [cbn; lia|eapply below_le; [|exact BL]; lia].
      - cbn [map o_id app]. constructor; [apply (below_fresh (next s)); [exact BL|lia]|apply I].
      - constructor; [|constructor]. cbn. repeat split; try discriminate. apply LV. exact Logic.I. }
    destruct (files_inv left (match set with Some l => l | None => [] end) _ _ I1) as (l' & C' & S' & I').
    cbn [Nat.add] in C', I', C |- *.
    match goal with |- context [load_files ?a ?b] => destruct (load_files a b) as [e' s'] end. cbn [fst snd] in *. exists l'. rewrite calls_app, C. split; [exact C'|]. split; [rewrite S'; reflexivity|exact I'].
Qed.
Lemma history_inv (left : kind -> Prop) ops : Forall usual ops -> Forall (fun o => forall k, leaves o k -> left k) ops -> forall s l, inv left s l ->
  exists l', calls l (fst (history s ops)) = Some l' /\ sets l' = (length (filter is_defaults ops) + sets l)%nat /\ inv left (snd (history s ops)) l'.
Proof.
  induction ops as [|o ops IH]; intros F G s l I; cbn [history]; [now exists l|]. inversion F; subst. inversion G; subst.
  destruct (op_inv left s l o I H1 H3) as (l1 & C1 & S1 & I1). destruct (do_op s o) as [e s1]. cbn [fst snd] in *.
  destruct (IH H2 H4 s1 l1 I1) as (l2 & C2 & S2 & I2). destruct (history s1 ops) as [e' s2]. cbn [fst snd] in *.
  exists l2. rewrite calls_app, C1. split; [exact C2|]. split; [|exact I2]. rewrite S2, S1. cbn [filter]. destruct (is_defaults o); cbn [length]; lia.
Qed.
Lemma inv_start left : inv left start [].
Proof. split; cbn; try constructor; intros; contradiction. Qed.
