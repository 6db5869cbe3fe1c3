From Verif Require Import Base Sexpr_Model Clone_Model Clone_Spec.
Local Open Scope nat_scope.

Lemma update_ok h a f n : nth_error h a = Some n ->
  exists h', update h a f = Ret h' /\ length h' = length h /\
    nth_error h' a = Some (f n) /\ forall b, b <> a -> nth_error h' b = nth_error h b.
Proof.
  revert a; induction h as [|m h IH]; intros a Ha; [destruct a; discriminate|].
  destruct a as [|a]; cbn in *.
  - inversion Ha; subst. exists (f n :: h). repeat split; auto. intros [|b] Hb; [congruence|reflexivity].
  - destruct (IH a Ha) as (h' & E & L & N & O). rewrite E. cbn. exists (m :: h').
    repeat split; cbn; auto. intros [|b] Hb; [reflexivity|]. apply O. congruence.
Qed.

(** [h'] agrees with [h] on all old addresses other than [a]'s. *)
Definition grows (h h' : heap) (except : option nat) : Prop :=
  length h <= length h' /\
  forall b, b < length h -> Some b <> except -> nth_error h' b = nth_error h b.

Lemma chain_stable lo h h' p es :
  chain lo h p es -> (forall b, lo <= b -> b < length h -> nth_error h' b = nth_error h b) ->
  chain lo h' p es.
Proof.
  intros H Hs; induction H.
  - constructor.
  - econstructor; eauto. rewrite Hs; eauto. apply nth_error_Some; congruence.
  - econstructor; eauto. rewrite Hs; eauto. apply nth_error_Some; congruence.
  - econstructor; eauto. rewrite Hs; eauto. apply nth_error_Some; congruence.
Qed.

Lemma chain_weaken lo lo' h p es : lo <= lo' -> chain lo' h p es -> chain lo h p es.
Proof. intros Hl H; induction H; econstructor; eauto; lia. Qed.

Definition slot_addr (c : slot) : option nat :=
  match c with SRet => None | SNext a => Some a end.

(** What writing [p] to the slot means for the resulting state. *)
Definition slot_result (h h' : heap) (copy ret : option nat) (c : slot) (p : option nat) : Prop :=
  match c with
  | SRet => ret = p
  | SNext a => ret = copy /\ exists n, nth_error h a = Some n /\ nth_error h' a = Some (set_next n p)
  end.

Definition slot_ok (h : heap) (copy : option nat) (c : slot) : Prop :=
  match c with
  | SRet => copy = None
  | SNext a => exists n, nth_error h a = Some n /\ n_next n = None
  end.

Lemma nth_error_snoc (h : heap) x : nth_error (h ++ [x]) (length h) = Some x.
Proof. rewrite nth_error_app2 by lia. now rewrite Nat.sub_diag. Qed.

Lemma nth_error_old (h t : heap) b : b < length h -> nth_error (h ++ t) b = nth_error h b.
Proof. intro; now apply nth_error_app1. Qed.

Lemma take_cons count e es : (count <> 0)%Z -> take count (e :: es) = e :: take (count - 1) es.
Proof.
  intro H. unfold take.
  destruct (Z.ltb_spec count 0) as [A|A]; destruct (Z.ltb_spec (count - 1) 0) as [B|B]; try lia; auto.
  replace (Z.to_nat count) with (S (Z.to_nat (count - 1))) by lia. reflexivity.
Qed.

Lemma take_nil count : take count [] = [].
Proof. unfold take. destruct (count <? 0)%Z; auto. now rewrite firstn_nil. Qed.

Lemma take_0 es : take 0 es = [].
Proof. reflexivity. Qed.

(** State invariant of the loop after it finished, started in (h, copy, c). *)
Definition done (h h' : heap) (copy ret : option nat) (c : slot) (es : list expr) : Prop :=
  exists p, grows h h' (slot_addr c) /\ slot_result h h' copy ret c p /\
    chain (length h) h' p es.

Lemma write_slot_done h copy c n0 : slot_ok h copy c ->
  let fresh := length h in
  exists h2 copy', write_slot (h ++ [n0]) copy c (Some fresh) = Ret (h2, copy') /\
    length h2 = S (length h) /\ nth_error h2 fresh = Some n0 /\
    (forall b, b < length h -> Some b <> slot_addr c -> nth_error h2 b = nth_error h b) /\
    slot_result h h2 copy copy' c (Some fresh).
Proof.
  intros Hs fresh. destruct c as [|a]; cbn in *.
  - exists (h ++ [n0]), (Some fresh). repeat split; auto.
    + rewrite app_length; cbn; lia.
    + apply nth_error_snoc.
    + intros; now apply nth_error_old.
  - destruct Hs as (n & Hn & _).
    assert (a < length h) as La by (apply nth_error_Some; congruence).
    destruct (update_ok (h ++ [n0]) a (fun n => set_next n (Some fresh)) n) as (h2 & E & L & N & O).
    { now rewrite nth_error_old. }
    rewrite E; cbn. exists h2, copy. repeat split; auto.
    + rewrite L, app_length; cbn; lia.
    + rewrite O by (unfold fresh; lia). apply nth_error_snoc.
    + intros b Hb Hne. rewrite O by congruence. now apply nth_error_old.
    + exists n; split; auto.
Qed.

(** Combining one iteration with the rest of the loop. *)
Lemma done_cons lo h h2 h3 h4 copy copy' ret c e es n0 nl :
  lo = length h ->
  length h2 = S lo -> nth_error h2 lo = Some (mk_node (n_type n0) (n_value n0) None None) ->
  (forall b, b < lo -> Some b <> slot_addr c -> nth_error h2 b = nth_error h b) ->
  slot_result h h2 copy copy' c (Some lo) ->
  length h2 <= length h3 ->
  nth_error h3 lo = Some (mk_node (n_type n0) (n_value n0) nl None) ->
  (forall b, b < lo -> nth_error h3 b = nth_error h2 b) ->
  done h3 h4 copy' ret (SNext lo) es ->
  (forall h' nx, nth_error h' lo = Some (mk_node (n_type n0) (n_value n0) nl nx) ->
     (forall b, lo < b -> b < length h3 -> nth_error h' b = nth_error h3 b) ->
     chain (length h) h' nx es -> chain (length h) h' (Some lo) (e :: es)) ->
  done h h4 copy ret c (e :: es).
Proof.
  intros -> L2 N2 O2 S2 L3 N3 O3 (p & [G1 G2] & [R1 (n & Hn & Hn')] & C) HC.
  exists (Some (length h)). cbn in G2. split; [|split].
  - split; [lia|]. intros b Hb Hne. rewrite G2; [|lia|intro X; injection X; lia].
    rewrite O3; [|lia]. auto.
  - subst ret. destruct c as [|a]; cbn in *; auto.
    destruct S2 as (-> & m & Hm & Hm2). split; auto. exists m; split; auto.
    assert (a < length h) by (apply nth_error_Some; congruence).
    rewrite G2; [|lia|intro X; injection X; lia]. now rewrite O3.
  - rewrite N3 in Hn. inversion Hn; subst n. eapply (HC h4 p).
    + exact Hn'.
    + intros b B1 B2. apply G2; [lia|]. intro X; injection X; lia.
    + eapply chain_weaken; [|exact C]. lia.
Qed.

Lemma fsize_cons e es : fsize (e :: es) = esize e + fsize es.
Proof. reflexivity. Qed.
Lemma esize_pos e : 0 < esize e.
Proof. destruct e; cbn; lia. Qed.
Lemma fsize_pos es : 0 < fsize es.
Proof. induction es as [|e es IH]; [cbn; lia|rewrite fsize_cons; lia]. Qed.

Lemma clone_loop_ok fuel : forall lo0 h copy c e count es,
  fsize es <= fuel -> chain lo0 h e es -> slot_ok h copy c ->
  (forall a, c = SNext a -> (* the slot is not a node that will be read *)
     exists h0, chain lo0 h0 e es /\ length h0 <= a /\ forall b, b < length h0 -> nth_error h0 b = nth_error h b) ->
  exists h' ret, clone_loop fuel h copy c e count = Ret (h', ret) /\
    done h h' copy ret c (take count es).
Proof.
  induction fuel as [|k IH]; intros lo0 h copy c e count es Hf Hch Hslot Hsep.
  { pose proof (fsize_pos es). lia. }
  cbn [clone_loop].
  assert (done h h copy copy c []) as Dnil.
  { exists None. split; [split; auto; lia|]. split; [|constructor].
    destruct c as [|a]; cbn in *; auto. destruct Hslot as (n & Hn & Hx).
    split; auto. exists n; split; auto. rewrite Hn. destruct n; cbn in *; subst; auto. }
  destruct e as [a|].
  2:{ exists h, copy. inversion Hch; subst. rewrite take_nil. auto. }
  destruct (Z.eqb_spec count 0) as [->|Hc].
  { exists h, copy. rewrite take_0. auto. }
  (* the heap in which the source chain lives, before any allocation *)
  assert (exists h0, chain lo0 h0 (Some a) es /\ length h0 <= length h /\
            (forall b, b < length h0 -> nth_error h0 b = nth_error h b) /\
            (forall x, slot_addr c = Some x -> length h0 <= x)) as (h0 & Hch0 & Lh0 & Ag & Sx).
  { destruct c as [|x].
    - exists h. repeat split; auto. discriminate.
    - destruct (Hsep x eq_refl) as (h0 & A & B & C). exists h0. repeat split; auto.
      + destruct Hslot as (n & Hn & _).
        assert (x < length h) by (apply nth_error_Some; congruence). lia.
      + cbn. intros y Y; inversion Y; subst; auto. }
  clear Hsep Hch.
  assert (exists nd, nth_error h a = Some nd) as [nd Hnd].
  { inversion Hch0; subst;
      (rewrite <- Ag by (apply nth_error_Some; congruence)); eauto. }
  unfold read. rewrite Hnd. cbn [bind].
  destruct (write_slot_done h copy c (mk_node (n_type nd) (n_value nd) None None) Hslot)
    as (h2 & copy' & E & L2 & N2 & O2 & S2).
  rewrite E. cbn [bind]. clear E.
  assert (forall b, b < length h0 -> nth_error h2 b = nth_error h0 b) as Ag2.
  { intros b Hb. rewrite O2 by (try lia; intro X; symmetry in X; apply Sx in X; lia). now rewrite Ag. }
  inversion Hch0 as [|a' v nx es' Hlo Hn Ht|a' v nx es' Hlo Hn Ht|a' l xs nx es' Hlo Hn Hl Ht]; subst.
  - (* literal *)
    rewrite Ag in Hn by (apply nth_error_Some; congruence). rewrite Hn in Hnd.
    inversion Hnd; subst nd. cbn [n_list n_next n_type n_value] in *. cbn [bind].
    rewrite take_cons by auto.
    destruct (IH lo0 h2 copy' (SNext (length h)) nx (count - 1)%Z es') as (h4 & ret & E & D).
    + rewrite fsize_cons in Hf. cbn in Hf. lia.
    + eapply chain_stable; [exact Ht|]. intros; now apply Ag2.
    + cbn. eexists; split; [exact N2|reflexivity].
    + intros x X; inversion X; subst x. exists h0. repeat split; auto. intros; symmetry; now apply Ag2.
    + exists h4, ret. split; auto.
      eapply (done_cons (length h) h h2 h2 h4) with (nl := None)
        (n0 := mk_node VALUE_LITERAL v None nx); eauto.
      intros h' nx' Hn' Hs' Hc'. econstructor; eauto.
  - rewrite Ag in Hn by (apply nth_error_Some; congruence). rewrite Hn in Hnd.
    inversion Hnd; subst nd. cbn [n_list n_next n_type n_value] in *. cbn [bind].
    rewrite take_cons by auto.
    destruct (IH lo0 h2 copy' (SNext (length h)) nx (count - 1)%Z es') as (h4 & ret & E & D).
    + rewrite fsize_cons in Hf. cbn in Hf. lia.
    + eapply chain_stable; [exact Ht|]. intros; now apply Ag2.
    + cbn. eexists; split; [exact N2|reflexivity].
    + intros x X; inversion X; subst x. exists h0. repeat split; auto. intros; symmetry; now apply Ag2.
    + exists h4, ret. split; auto.
      eapply (done_cons (length h) h h2 h2 h4) with (nl := None)
        (n0 := mk_node VALUE v None nx); eauto.
      intros h' nx' Hn' Hs' Hc'. econstructor; eauto.
  - rewrite Ag in Hn by (apply nth_error_Some; congruence). rewrite Hn in Hnd.
    inversion Hnd; subst nd. cbn [n_list n_next n_type n_value] in *.
    rewrite take_cons by auto. rewrite fsize_cons in Hf.
    assert (fsize xs <= k /\ fsize es' <= k) as [Fx Fe].
    { cbn [esize] in Hf. fold (fsize xs) in Hf. lia. }
    destruct l as [l|].
    + destruct (IH lo0 h2 None SRet (Some l) (-1)%Z xs) as (h'' & p & E & D); auto.
      * eapply chain_stable; [exact Hl|]. intros; now apply Ag2.
      * reflexivity.
      * discriminate.
      * rewrite E. cbn [bind]. clear E.
        change (take (-1) xs) with xs in D.
        destruct D as (p' & [G1 G2] & Rp & Cp). cbn in Rp, G2; subst p'.
        destruct (update_ok h'' (length h) (fun m => set_list m p)
                   (mk_node LIST [] None None)) as (h3 & E3 & L3 & N3 & O3).
        { rewrite G2 by (try lia; discriminate). exact N2. }
        rewrite E3. cbn [bind]. clear E3.
        destruct (IH lo0 h3 copy' (SNext (length h)) nx (count - 1)%Z es') as (h4 & ret & E & D); auto.
        -- eapply chain_stable; [exact Ht|]. intros b _ Hb.
           rewrite O3 by lia. rewrite G2 by (try lia; discriminate). now apply Ag2.
        -- cbn. eexists; split; [exact N3|reflexivity].
        -- intros x X; inversion X; subst x. exists h0. repeat split; auto.
           intros b Hb. rewrite O3 by lia. rewrite G2 by (try lia; discriminate). symmetry; now apply Ag2.
        -- exists h4, ret. split; auto.
           eapply (done_cons (length h) h h2 h3 h4) with (nl := p)
             (n0 := mk_node LIST [] (Some l) nx); eauto.
           ++ lia.
           ++ intros b Hb. rewrite O3 by lia. apply G2; [lia|discriminate].
           ++ intros h' nx' Hn' Hs' Hc'. econstructor; eauto.
              eapply chain_weaken with (lo' := length h2); [lia|].
              eapply chain_stable; [exact Cp|].
              intros b B1 B2. rewrite Hs' by lia. apply O3. lia.
    + inversion Hl; subst xs. cbn [bind].
      destruct (IH lo0 h2 copy' (SNext (length h)) nx (count - 1)%Z es') as (h4 & ret & E & D); auto.
      * eapply chain_stable; [exact Ht|]. intros; now apply Ag2.
      * cbn. eexists; split; [exact N2|reflexivity].
      * intros x X; inversion X; subst x. exists h0. repeat split; auto. intros; symmetry; now apply Ag2.
      * exists h4, ret. split; auto.
        eapply (done_cons (length h) h h2 h2 h4) with (nl := None)
          (n0 := mk_node LIST [] None nx); eauto.
        intros h' nx' Hn' Hs' Hc'. econstructor; eauto. constructor.
Qed.

Lemma prefix_app (h h' : heap) : length h <= length h' ->
  (forall b, b < length h -> nth_error h' b = nth_error h b) -> exists new, h' = h ++ new.
Proof.
  revert h'. induction h as [|n h IH]; intros h' L H; [exists h'; reflexivity|].
  destruct h' as [|n' h']; [cbn in L; lia|].
  destruct (IH h') as [new ->].
  - cbn in L; lia.
  - intros b Hb. apply (H (S b)). cbn; lia.
  - exists new. specialize (H 0 ltac:(cbn; lia)). cbn in *. congruence.
Qed.

Lemma clone_ok h p es count : chain 0 h p es ->
  exists new q, expr_clone (fsize es) h p count = Ret (h ++ new, q) /\
    chain (length h) (h ++ new) q (take count es) /\ chain 0 (h ++ new) p es.
Proof.
  intro H.
  destruct (clone_loop_ok (fsize es) 0 h None SRet p count es (le_n _) H eq_refl ltac:(discriminate))
    as (h' & q & E & p' & [G1 G2] & R & C).
  cbn in R, G2. subst p'.
  assert (exists new, h' = h ++ new) as [new ->].
  { apply prefix_app; auto. intros; apply G2; [auto|discriminate]. }
  exists new, q. repeat split; auto.
  eapply chain_stable; [exact H|]. intros; now apply nth_error_old.
Qed.
