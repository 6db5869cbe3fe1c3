(** Lemmas about whole programs. *)
From Coq Require Import Reals.
From Verif Require Import Base Num Sexpr_Model Dispatch_Model Dispatch_Spec Data_Model Scale_Model Units_Model Color_Model
  Geo_Model Svg_Model Legend_Model Plist_Model Cmd_Model Cmd_Spec Cmd_Proofs Style_Model Plot_Model Axis_Model Eval_Model Eval_Spec.
Local Open Scope R_scope.

Section Collect.
  Context {S : Type}.
  Variable fns : list (str * cmd S).
  Definition knows (x : expr) : bool :=
    match option_of x with Some (k, _) => match assoc k fns with Some _ => true | None => false end | None => false end.
  Fixpoint rest (l u t : list expr) : list expr :=
    match l with
    | [] => u ++ t
    | x :: r => if knows x then rest r u t else rest r (u ++ [x]) r
    end.
  Lemma collect_is l : forall u t s, walkx fns true l u t s = (let* s' := options fns l s in Ret (s', rest l u t)).
  Proof.
    induction l as [|x l IH]; intros u t s; [reflexivity|]. rewrite options_cons. cbn [walkx rest]. unfold knows.
    destruct x as [[|[y|k|k] a]| |]; try reflexivity; cbn [value_of option_of tl];
      (destruct (assoc k fns) as [f|]; [destruct (f a s); cbn [bind]; try reflexivity; apply IH|apply IH]).
  Qed.
  (** What is collected, up to known commands. *)
  Lemma rest_unknown l : forall u t, (exists p, t = p ++ l /\ Forall (fun x => knows x = true) p) \/ t = [] ->
    Forall (fun x => knows x = false) u ->
    filter (fun x => negb (knows x)) (rest l u t) = u ++ filter (fun x => negb (knows x)) l.
  Proof.
    assert (FU : forall u, Forall (fun x => knows x = false) u -> filter (fun x => negb (knows x)) u = u).
    { induction 1 as [|x u K F IH]; [reflexivity|]. cbn. rewrite K. cbn. now rewrite IH. }
    assert (FK : forall u, Forall (fun x => knows x = true) u -> filter (fun x => negb (knows x)) u = []).
    { induction 1 as [|x u K F IH]; [reflexivity|]. cbn. rewrite K. exact IH. }
    induction l as [|x l IH]; intros u t T U.
    - cbn [rest filter]. rewrite filter_app, FU by assumption. f_equal. destruct T as [(p & -> & P)| ->]; [|reflexivity].
      rewrite app_nil_r. now apply FK.
    - cbn [rest filter]. destruct (knows x) eqn:K; cbn [negb].
      + apply IH; [|exact U]. destruct T as [(p & -> & P)| ->]; [left|now right]. exists (p ++ [x]). rewrite <- app_assoc. split; [reflexivity|].
        apply Forall_app. split; [exact P|]. constructor; [exact K|constructor].
      + rewrite IH.
        * now rewrite <- app_assoc.
        * left. exists []. split; [reflexivity|constructor].
        * apply Forall_app. split; [exact U|]. constructor; [exact K|constructor].
  Qed.
  Lemma rest_from l : forall u t x, In x (rest l u t) -> In x u \/ In x t \/ In x l.
  Proof.
    induction l as [|y l IH]; intros u t x; cbn [rest].
    - rewrite in_app_iff. tauto.
    - destruct (knows y); intro I; apply IH in I; cbn [In]; [tauto|]. rewrite in_app_iff in I. cbn [In] in I. tauto.
  Qed.
  Lemma rest_nil l : forall u, rest l u [] = [] -> u = [] /\ filter (fun x => negb (knows x)) l = [].
  Proof.
    intros u H. assert (X : filter (fun x => negb (knows x)) (rest l u []) = []) by now rewrite H.
    revert u H X. induction l as [|x l IH]; intros u H X.
    - cbn [rest] in H. rewrite app_nil_r in H. now split.
    - cbn [rest filter] in *. destruct (knows x); cbn [negb]; [now apply IH|].
      exfalso. clear - H.
      assert (K : forall l u t, u <> [] -> rest l u t <> []).
      { induction l0 as [|z l0 IH]; intros u0 t N; cbn [rest]; [destruct u0; [congruence|discriminate]|].
        destruct (knows z); apply IH; auto. destruct u0; discriminate. }
      revert H. apply K. destruct u; discriminate.
  Qed.
  Lemma rest_none l : forallb knows l = true -> rest l [] [] = [].
  Proof. induction l as [|x l IH]; [reflexivity|]. cbn. destruct (knows x); [exact IH|discriminate]. Qed.
End Collect.

(** Options of another table do not matter. *)
Lemma options_skip {S} (tbl : list (str * cmd S)) (skip : expr -> bool) l :
  (forall x k a, In x l -> skip x = true -> option_of x = Some (k, a) -> assoc k tbl = None) -> well_formed l ->
  forall s, options tbl l s = options tbl (filter (fun x => negb (skip x)) l) s.
Proof.
  induction l as [|x l IH]; intros D F s; [reflexivity|]. inversion F as [|? ? F1 F2]; subst.
  assert (IH' := IH (fun y k a I => D y k a (or_intror I)) F2).
  cbn [filter]. rewrite options_cons. destruct (option_of x) as [[k a]|] eqn:O; [|congruence].
  destruct (skip x) eqn:K; cbn [negb].
  - rewrite (D x k a (or_introl eq_refl) K O). apply IH'.
  - rewrite options_cons, O. destruct (assoc k tbl) as [f|]; [|apply IH'].
    destruct (f a s); cbn [bind]; try reflexivity. apply IH'.
Qed.
Lemma options_wf {S} (tbl : list (str * cmd S)) l : forall s s', options tbl l s = Ret s' -> well_formed l.
Proof.
  induction l as [|x l IH]; intros s s' H; [constructor|]. rewrite options_cons in H. destruct (option_of x) as [[k a]|] eqn:O; [|discriminate].
  constructor; [congruence|]. destruct (assoc k tbl) as [f|]; [inv_bind H; exact (IH _ _ H)|exact (IH _ _ H)].
Qed.
Lemma wf_filter f l : well_formed l -> well_formed (filter f l).
Proof. unfold well_formed. rewrite !Forall_forall. intros F x I. apply filter_In in I as [I _]. auto. Qed.

Section Program.
  Variable W : world.
  Lemma eval_knows x : knows (eval_table W) x = is_setting x.
  Proof.
    unfold knows, is_setting, setting_words. destruct (option_of x) as [[k a]|]; [|reflexivity]. unfold eval_table. cbn [assoc existsb].
    repeat (destruct (str_eqb k _); [reflexivity|]). reflexivity.
  Qed.
  Definition content (e : list expr) : list expr := filter (fun x => negb (is_setting x)) e.
  Lemma filter_ext_knows l : filter (fun x => negb (knows (eval_table W) x)) l = content l.
  Proof. apply filter_ext. intro x. now rewrite eval_knows. Qed.
  Lemma eval_is E e : eval_exprs W E e =
    let* (s, args) := (let* s := options (eval_table W) e (E, s_ "plot") in Ret (s, rest (eval_table W) e [] [])) in
    let '(E, name) := s in
    match name with
    | [] => Err
    | _ => match assoc name (modules W) with
           | None => Err
           | Some m => match args with [] => UB | _ => let* l := m E args in Ret (E, l) end
           end
    end.
  Proof. unfold eval_exprs, run_collect. now rewrite collect_is. Qed.

  (** A command that is no setting is one of content, and plot looks at these only. *)
  Lemma prepare_no_setting E x k a : is_setting x = true -> option_of x = Some (k, a) ->
    assoc k (prepare_table W E) = None /\ assoc k (draw_table W E) = None.
  Proof.
    unfold is_setting. intros I O. rewrite O in I. apply existsb_exists in I as (w & I & K). destruct (str_eqb_spec k w) as [->|]; [|discriminate].
    destruct I as [<-|[<-|[<-|[<-|[<-|[]]]]]]; split; reflexivity.
  Qed.
  Lemma plot_skip E e : well_formed e -> plot_eval W E e = plot_eval W E (content e).
  Proof.
    intro F. unfold plot_eval. change (plot_prepare W E) with (options (prepare_table W E)). change (plot_draw W E) with (options (draw_table W E)).
    rewrite (options_skip (prepare_table W E) is_setting e) by (auto; intros x k a _ I O; now destruct (prepare_no_setting E x k a I O)).
    destruct (options (prepare_table W E) _ plot0) as [p| | | |]; try reflexivity. cbn [bind].
    rewrite (options_skip (draw_table W E) is_setting e) by (auto; intros x k a _ I O; now destruct (prepare_no_setting E x k a I O)).
    reflexivity.
  Qed.
  Lemma rest_content e : content (rest (eval_table W) e [] []) = content e.
  Proof. rewrite <- !filter_ext_knows. apply (rest_unknown (eval_table W) e [] []); [now right|constructor]. Qed.
  Lemma rest_wf e : well_formed e -> well_formed (rest (eval_table W) e [] []).
  Proof. unfold well_formed. rewrite !Forall_forall. intros F x I. apply rest_from in I as [[]|[[]|I]]. auto. Qed.
  Lemma plot_rest E e : well_formed e -> plot_eval W E (rest (eval_table W) e [] []) = plot_eval W E e.
  Proof. intro F. rewrite plot_skip by now apply rest_wf. rewrite rest_content. symmetry. now apply plot_skip. Qed.

  Lemma options_settings e s : well_formed e -> options (eval_table W) e s = options (eval_table W) (filter is_setting e) s.
  Proof.
    intro F. rewrite (options_skip _ (fun x => negb (is_setting x)) e); [|intros x k a _ I O|exact F].
    - f_equal. apply filter_ext. intro x. apply Bool.negb_involutive.
    - rewrite <- eval_knows in I. unfold knows in I. rewrite O in I. now destruct (assoc k (eval_table W)).
  Qed.
End Program.
