(** Theorems about programs: C84 (page settings) and C85 (unknown commands). *)
From Coq Require Import Reals.
From Verif Require Import Base Num Sexpr_Model Dispatch_Model Dispatch_Spec Data_Model Scale_Model Units_Model Color_Model
  Geo_Model Svg_Model Legend_Model Plist_Model Cmd_Model Cmd_Spec Cmd_Proofs Style_Model Plot_Model Axis_Model Eval_Model Eval_Spec Eval_Proofs.
Local Open Scope R_scope.

(* ------------------------------------------------------------------ C84 *)
Lemma last_ok {T} (k : str) (rd : list expr -> outcome T) e (given : list expr -> T -> Prop) (s s' : T) :
  (forall a v, rd a = Ret v -> given a v) ->
  options [(k, fun a (_ : T) => rd a)] e s = Ret s' -> match last_args k e with Some a => given a s' | None => s' = s end.
Proof. intros G H. apply options_last in H. destruct (last_args k e); [now apply G|exact H]. Qed.
Lemma resize_ok W l a v : ended (layer_resize_cmd (w_d W) (w_stod W) l a) = Ret v -> exists w h, v = with_size l w h /\ page_measures W a w h /\
  forall l', ended (layer_resize_cmd (w_d W) (w_stod W) l' a) = Ret (with_size l' w h).
Proof.
  unfold layer_resize_cmd, page_measures. destruct a as [|a1 [|a2 [|]]]; try discriminate.
  - unfold layer_resize_paper. destruct (assoc (node_text a1) paper_sizes) as [[w h]|]; [|discriminate]. intro Q. injection Q as <-.
    exists (from_mm w), (from_mm h). split; [reflexivity|]. split; [eauto|reflexivity].
  - change (measure_read (w_d W) (w_stod W) [a1; a2]) with (measure_read (w_d W) (w_stod W) [a1]).
    destruct (measure_read (w_d W) (w_stod W) [a1]) as [w| | | |]; try discriminate. destruct (measure_read (w_d W) (w_stod W) [a2]) as [h| | | |]; try discriminate.
    intro Q. injection Q as <-. exists w, h. auto.
Qed.
Lemma dpi_ok W l a v : ended (layer_set_dpi_cmd (w_stod W) l a) = Ret v -> exists n q, v = mk_layer (l_width l) (l_height l) q (l_font_size l) /\ a = [n] /\
  expr_to_float64 (w_stod W) [n] = Ret q.
Proof.
  unfold layer_set_dpi_cmd. destruct a as [|n [|]]; try discriminate. destruct (expr_to_float64 (w_stod W) [n]) as [q| | | |] eqn:Q; try discriminate.
  intro X. injection X as <-. eauto 6.
Qed.
Lemma font_size_ok W l a v : ended (layer_set_font_size_cmd (w_d W) (w_stod W) l a) = Ret v -> exists n q, v = mk_layer (l_width l) (l_height l) (l_dpi l) q /\ a = [n] /\
  measure_read (w_d W) (w_stod W) [n] = Ret q.
Proof.
  unfold layer_set_font_size_cmd. destruct a as [|n [|]]; try discriminate. destruct (measure_read (w_d W) (w_stod W) [n]) as [q| | | |] eqn:Q; try discriminate.
  intro X. injection X as <-. eauto 6.
Qed.
(** Taking the five settings apart; [g] is a part of the page. *)
Ltac settings :=
  unfold projects, eval_table; repeat apply Forall_cons; try apply Forall_nil; intros a s s' Q; cbn [fst snd] in *; unfold upd, updf in Q; inv_bind Q; injection Q as <-; try reflexivity;
  cbn [fst e_layer with_layer];
  match goal with
  | A : ended (layer_resize_cmd _ _ _ _) = _ |- _ => let B := fresh "B" in apply resize_ok in A as (? & ? & -> & ? & B); try reflexivity; cbn [assoc str_eqb]
  | A : ended (layer_set_dpi_cmd _ _ _) = _ |- _ => apply dpi_ok in A as (? & ? & -> & -> & A); try reflexivity
  | A : ended (layer_set_font_size_cmd _ _ _ _) = _ |- _ => apply font_size_ok in A as (? & ? & -> & -> & A); try reflexivity
  | _ => idtac
  end.
Lemma settings_ok W E e E' name : options (eval_table W) e (E, s_ "plot") = Ret (E', name) -> page_of W E e E' /\ class_of e name.
Proof.
  intro H.
  assert (I : forall k : string, In (s_ k) (map fst (eval_table W)) -> incl [s_ k] (map fst (eval_table W))) by (intros k0 I x [<-|[]]; exact I).
  split; [|].
  - unfold page_of. split; [|split; [|split; [|split]]].
    + pose (rd := fun a => let* v := ended (layer_resize_cmd (w_d W) (w_stod W) layer0 a) in Ret (l_width v, l_height v)).
      assert (P : projects (fun s : env * str => (l_width (e_layer (fst s)), l_height (e_layer (fst s)))) (eval_table W) [(s_ "size", fun a (_ : measure * measure) => rd a)]).
      { settings. change (rd a = Ret (x, x0)). unfold rd. rewrite B. reflexivity. }
      unfold last_or. refine (last_ok (s_ "size") rd e (fun a s => page_measures W a (fst s) (snd s)) _ _ _ (options_proj _ _ _ P (I "size"%string ltac:(cbn; tauto)) _ _ _ H)).
      intros a v Q. unfold rd in Q. inv_bind Q. apply resize_ok in A as (w & h & -> & S & _). injection Q as <-. exact S.
    + pose (rd := fun a => let* v := ended (layer_set_dpi_cmd (w_stod W) layer0 a) in Ret (l_dpi v)).
      assert (P : projects (fun s : env * str => l_dpi (e_layer (fst s))) (eval_table W) [(s_ "dpi", fun a (_ : xr) => rd a)]).
      { settings. change (rd [x] = Ret x0). unfold rd, layer_set_dpi_cmd. rewrite A. reflexivity. }
      unfold last_or. refine (last_ok (s_ "dpi") rd e (fun a v => exists n, a = [n] /\ expr_to_float64 (w_stod W) [n] = Ret v) _ _ _ (options_proj _ _ _ P (I "dpi"%string ltac:(cbn; tauto)) _ _ _ H)).
      intros a v Q. unfold rd in Q. inv_bind Q. apply dpi_ok in A as (n & q & -> & -> & S). injection Q as <-. eauto.
    + pose (rd := fun a => let* v := ended (layer_set_font_size_cmd (w_d W) (w_stod W) layer0 a) in Ret (l_font_size v)).
      assert (P : projects (fun s : env * str => l_font_size (e_layer (fst s))) (eval_table W) [(s_ "font-size", fun a (_ : measure) => rd a)]).
      { settings. change (rd [x] = Ret x0). unfold rd, layer_set_font_size_cmd. rewrite A. reflexivity. }
      unfold last_or. refine (last_ok (s_ "font-size") rd e (fun a v => exists n, a = [n] /\ measure_read (w_d W) (w_stod W) [n] = Ret v) _ _ _ (options_proj _ _ _ P (I "font-size"%string ltac:(cbn; tauto)) _ _ _ H)).
      intros a v Q. unfold rd in Q. inv_bind Q. apply font_size_ok in A as (n & q & -> & -> & S). injection Q as <-. eauto.
    + assert (P : projects (fun s : env * str => e_font (fst s)) (eval_table W) [(s_ "font", set_font_cmd W)]).
      { unfold projects, eval_table. repeat apply Forall_cons; try apply Forall_nil; intros a s s' Q; cbn [fst snd] in *; unfold upd, updf in Q; inv_bind Q; injection Q as <-; try reflexivity.
        cbn [assoc]. exact A. }
      exact (options_proj _ _ _ P (I "font"%string ltac:(cbn; tauto)) _ _ _ H).
    + pose (K := fun s : env * str => e_bg (fst s) = e_bg E /\ e_fg (fst s) = e_fg E /\ e_text_color (fst s) = e_text_color E /\ e_palette (fst s) = e_palette E /\ e_default (fst s) = e_default E).
      change (K (E', name)). refine (options_inv _ K e _ _ _ _ H); [|unfold K; cbn; tauto].
      intros k f J a s s' Ks C. unfold eval_table in J. cbn [In] in J. unfold K in *.
      repeat (destruct J as [J|J]; [injection J as _ <-; unfold upd, updf in C; inv_bind C; injection C as <-; exact Ks|]). destruct J.
  - unfold class_of, last_or.
    assert (P : projects (fun s : env * str => snd s) (eval_table W) [(s_ "class", fun a (_ : str) => expr_to_string a)]).
    { unfold projects, eval_table. repeat apply Forall_cons; try apply Forall_nil; intros a s s' Q; cbn [fst snd] in *; unfold upd, updf in Q; inv_bind Q; injection Q as <-; try reflexivity.
      cbn [assoc]. exact A. }
    exact (options_last _ _ _ _ _ (options_proj _ _ _ P (I "class"%string ltac:(cbn; tauto)) _ _ _ H)).
Qed.

(** C84. A program of class plot: the page is the one that the settings describe, wherever they
    stand, and the whole program is plotted on this page. *)
Theorem C84_page : forall (W : world) (E E' : env) (e : list expr) (out : list draw_command),
  eval_exprs W E e = Ret (E', out) ->
  page_of W E e E' /\
  ((class_of e (s_ "plot") /\ plot_eval W E' e = Ret out) \/
   (class_of e (s_ "draw") /\ exists args, draw_eval W E' args = Ret out /\
      filter (fun x => negb (is_setting x)) args = filter (fun x => negb (is_setting x)) e)).
Proof.
  intros W E E' e out H. rewrite eval_is in H. inv_bind H. destruct v as [s args]. inv_bind A. injection A as <- <-. destruct v as [E1 name].
  destruct (settings_ok W E e E1 name A0) as [P C]. destruct name as [|c r]; [discriminate|].
  destruct (assoc (c :: r) (modules W)) as [m|] eqn:M; [|discriminate].
  destruct (rest (eval_table W) e [] []) as [|x args] eqn:Re; [discriminate|]. inv_bind H. injection H as <- <-. split; [exact P|].
  unfold modules in M. cbn [assoc] in M. rewrite <- Re in A.
  destruct (str_eqb_spec (c :: r) (s_ "draw")) as [D|N1].
  - injection M as <-. right. rewrite D in C. split; [exact C|]. eexists. split; [exact A|]. apply rest_content.
  - destruct (str_eqb_spec (c :: r) (s_ "plot")) as [D|N2]; [|discriminate]. injection M as <-. left. rewrite D in C. split; [exact C|].
    rewrite plot_rest in A; [exact A|]. exact (options_wf _ _ _ _ A0).
Qed.
Print Assumptions C84_page.

(** C84. Moving the settings of a plot about, without changing their order, changes nothing. *)
Theorem C84_order : forall (W : world) (E : env) (e e' : list expr),
  well_formed e -> well_formed e' ->
  filter is_setting e = filter is_setting e' -> filter (fun x => negb (is_setting x)) e = filter (fun x => negb (is_setting x)) e' ->
  (forall x a, In x e -> option_of x = Some (s_ "class", a) -> expr_to_string a = Ret (s_ "plot")) ->
  eval_exprs W E e = eval_exprs W E e'.
Proof.
  intros W E e e' F F' S C N. rewrite !eval_is, (options_settings W e), (options_settings W e'), S by assumption.
  destruct (options (eval_table W) (filter is_setting e') (E, s_ "plot")) as [[E1 name]| | | |] eqn:O; try reflexivity. cbn [bind].
  assert (Nm : name = s_ "plot").
  { rewrite <- S, <- options_settings in O by assumption. destruct (settings_ok W E e E1 name O) as [_ Cl]. unfold class_of, last_or in Cl.
    destruct (last_args (s_ "class") e) as [a|] eqn:L; [|exact Cl].
    assert (exists x, In x e /\ option_of x = Some (s_ "class", a)) as (x & I & Ox).
    { clear - L. induction e as [|x e IH]; [discriminate|]. cbn [last_args] in L. destruct (last_args (s_ "class") e).
      - destruct (IH L) as (y & I & O). exists y. split; [now right|exact O].
      - exists x. split; [now left|]. destruct (option_of x) as [[k b]|]; [|discriminate]. destruct (str_eqb_spec k (s_ "class")) as [->|]; [congruence|discriminate]. }
    rewrite (N x a I Ox) in Cl. congruence. }
  rewrite Nm. change (assoc (s_ "plot") (modules W)) with (Some (plot_eval W)). cbv iota. cbn [s_].
  assert (P : forall args, args = rest (eval_table W) e [] [] \/ args = rest (eval_table W) e' [] [] -> plot_eval W E1 args = plot_eval W E1 (content e)).
  { intros args [-> | ->].
    - rewrite plot_rest by assumption. now apply plot_skip.
    - rewrite plot_rest by assumption. unfold content. rewrite C. now apply plot_skip. }
  assert (Z : forall l l', content l = content l' -> rest (eval_table W) l [] [] = [] -> rest (eval_table W) l' [] [] = []).
  { intros l l' Q R. apply rest_nil in R as [_ R]. rewrite filter_ext_knows, Q, <- (filter_ext_knows W) in R. apply rest_none.
    clear - R. induction l' as [|x l IH]; [reflexivity|]. cbn in *. destruct (knows (eval_table W) x); [now apply IH|discriminate]. }
  destruct (rest (eval_table W) e [] []) as [|x r] eqn:R1, (rest (eval_table W) e' [] []) as [|x' r'] eqn:R2; try reflexivity.
  - exfalso. rewrite (Z e e' C R1) in R2. discriminate.
  - exfalso. rewrite (Z e' e (eq_sym C) R2) in R1. discriminate.
  - now rewrite (P (x :: r)), (P (x' :: r')) by auto.
Qed.
Print Assumptions C84_order.

(** C84 fails for class draw: a program whose last command is a setting is never drawn. *)
Theorem C84_draw_refuted : forall (W : world) (E : env) (e : list expr) (x : expr),
  is_setting x = true -> class_of (e ++ [x]) (s_ "draw") -> forall r, eval_exprs W E (e ++ [x]) <> Ret r.
Proof.
  intros W E e x S C r H. rewrite eval_is in H. inv_bind H. destruct v as [s args]. inv_bind A. injection A as <- <-. destruct v as [E1 name].
  destruct (settings_ok W E _ E1 name A0) as [_ C']. assert (Nm : name = s_ "draw").
  { unfold class_of, last_or in C, C'. destruct (last_args (s_ "class") (e ++ [x])); congruence. }
  subst name. change (assoc (s_ "draw") (modules W)) with (Some (draw_eval W)) in H. cbv iota in H. cbn [s_] in H.
  assert (L : forall l u t, rest (eval_table W) (l ++ [x]) u (t ++ [x]) = rest (eval_table W) l u t ++ [x]).
  { induction l as [|y l IH]; intros u t; cbn [app rest].
    - rewrite (eval_knows W), S. apply app_assoc.
    - rewrite (eval_knows W). destruct (is_setting y); apply IH. }
  assert (L' : forall l u, rest (eval_table W) (l ++ [x]) u [] = rest (eval_table W) l u [] /\ forallb is_setting l = true \/
                           rest (eval_table W) (l ++ [x]) u [] = rest (eval_table W) l u [] ++ [x]).
  { induction l as [|y l IH]; intros u; cbn [app rest forallb].
    - left. rewrite (eval_knows W), S. auto.
    - rewrite (eval_knows W). destruct (is_setting y); [apply IH|]. right. apply L. }
  destruct (L' e []) as [[Q K]|Q].
  - rewrite Q, (rest_none (eval_table W) e) in H; [discriminate|]. rewrite <- K. clear. induction e; [reflexivity|]. cbn. now rewrite eval_knows, IHe.
  - rewrite Q in H. destruct (rest (eval_table W) e [] [] ++ [x]) as [|y l] eqn:Z; [discriminate|]. change (s_ "draw") with ("d"%char :: s_ "raw") in H. cbv iota in H. inv_bind H. rewrite <- Z in A.
    unfold draw_eval in A. rewrite run_app in A. inv_bind A. rewrite run_cons in A.
    unfold is_setting in S. destruct (option_of x) as [[k a]|]; [|discriminate]. apply existsb_exists in S as (w & I & Kw). destruct (str_eqb_spec k w) as [->|]; [|discriminate].
    destruct I as [<-|[<-|[<-|[<-|[<-|[]]]]]]; discriminate.
Qed.
Print Assumptions C84_draw_refuted.
