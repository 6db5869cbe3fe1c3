(** A program without given limits: two dots, each of which moves the other. *)
From Coq Require Import Reals Lra.
From Verif Require Import Base Num Sexpr_Model Dispatch_Model Data_Model Scale_Model Units_Model Color_Model Svg_Model Geo_Model Cmd_Model Cmd_Spec Cmd_Proofs
  Style_Model Plot_Model Plot_Spec Axis_Model Eval_Model Eval_Spec Eval_Proofs Eval_Props Demo Eval_Examples Given_Proofs6.
Local Open Scope string_scope.
Local Open Scope list_scope.
Definition column (k : string) (v : string) : expr := EList [ELit (s_ k); EList [ELit (s_ "list"); ELit (s_ v)]].
Definition dot_at (x y : string) : list expr := [column "data-x" x; column "data-y" y].
Definition dot (x y : string) : expr := EList (ELit (s_ "lines") :: dot_at x y).
Definition first_nan (c : draw_command) : bool := match dc_path c with MoveTo v :: _ => match vx v with NaN => true | _ => false end | _ => false end.
Definition auto (h : option xr * option xr) : scale := mk_scale Linear None None (Fin 10) false (Fin 0) (fst h) (snd h) [] [].
Definition between (h g : option xr * option xr) : plot :=
  mk_plot (auto h) (mk_scale Linear (Some (Fin 0)) (Some (Fin 10)) (Fin 10) false (Fin 0) (fst g) (snd g) [] []) (Fin 0, Fin 0, Fin 0, Fin 0) [].
Definition seen (l h : R) : option xr * option xr := (Some (Fin l), Some (Fin h)).
Lemma dot_conf p x : (x = "1" \/ x = "3") -> exists c b, lines_configure demo demo_env p (dot_at x "1") = Ret (c, b, []) /\ l_sx c = p_sx p /\ l_sy c = p_sy p /\ l_msize c = Fin 0 /\ lb_text (l_lbl c) = [] /\
  (forall s, s_kind s = Linear -> to_unit demo s (fst b) = (let* u := scale_translate (w_d demo) (w_f demo) s (Fin (if String.eqb x "1" then 1 else 3)) in Ret [u])) /\
  (forall s, s_kind s = Linear -> to_unit demo s (snd b) = (let* u := scale_translate (w_d demo) (w_f demo) s (Fin 1) in Ret [u])) /\
  (forall s, s_kind s = Linear -> fit_data demo s (fst b) = Ret (fit s (Fin (if String.eqb x "1" then 1 else 3)))) /\
  (forall s, s_kind s = Linear -> fit_data demo s (snd b) = Ret (fit s (Fin 1))).
Proof.
  intros [-> | ->]; do 2 eexists; (split; [reflexivity|]); (split; [reflexivity|]); (split; [reflexivity|]); (split; [reflexivity|]); (split; [reflexivity|]);
    repeat split; intros [k0 a1 a2 a3 a4 a5 a6 a7 a8 a9] K; cbn [s_kind] in K; subst k0; reflexivity.
Qed.
Lemma shape_path p s f a : dc_path (shape_of p s f a) = p.
Proof.
  unfold shape_of, draw_shape. cbv zeta. repeat match goal with |- context [let '(_, _) := ?X in _] => destruct X end. reflexivity.
Qed.
Lemma dot_draws p x l h : (x = "1" \/ x = "3") -> (exists g, p = between (seen l h) g) ->
  exists c, lines_draw demo demo_env p (dot_at x "1") = Ret [c] /\ first_nan c = (if Req_EM_T l h then if Req_EM_T l (if String.eqb x "1" then 1 else 3) then true else false else false).
Proof.
  intros X [g ->]. destruct (dot_conf (between (seen l h) g) x X) as (c & b & C & CX & CY & M & L & U & V & _). unfold lines_draw. rewrite C. cbn [bind].
  rewrite U, V, CX, CY by (rewrite ?CX, ?CY; reflexivity). cbn [scale_translate between auto p_sx p_sy s_kind bind].
  unfold draw_labels. rewrite M, L. destruct (xlt (Fin 0) (Fin 0)) eqn:Z; [unfold xlt in Z; destruct (Rlt_dec 0 0); [lra|discriminate]|].
  change (plot_clip demo demo_env (between (seen l h) g)) with (plot_clip demo demo_env demo_plot). rewrite demo_clip.
  cbn -[translate_linear place_pt rect shape_of]. eexists. split; [reflexivity|].
  unfold first_nan. rewrite shape_path. cbn [vx place_pt px_ rect rx rw].
  unfold place_pt, px_, translate_linear, scale_min, scale_max, auto, seen. cbn [vx rx rw rect s_inverted s_min s_max h_min h_max s_padding fst snd xround xsub xadd xneg xdiv].
  unfold rect, exact. cbn -[Req_EM_T Rlt_dec]. unfold exact, xmul, xsign_inf. set (v := if String.eqb x "1" then 1%R else 3%R).
  destruct (Req_EM_T l h) as [<-|N].
  - destruct (Req_EM_T (l + 0 + - (l + - 0)) 0); [|exfalso; lra]. destruct (Req_EM_T l v) as [<-|N].
    + destruct (Rlt_dec 0 (l + - (l + - 0))); [exfalso; lra|]. destruct (Rlt_dec (l + - (l + - 0)) 0); [exfalso; lra|]. reflexivity.
    + destruct (Rlt_dec 0 (v + - (l + - 0))); [destruct (Rlt_dec 0 1600); [reflexivity|exfalso; lra]|].
      destruct (Rlt_dec (v + - (l + - 0)) 0); [destruct (Rlt_dec 0 1600); [reflexivity|exfalso; lra]|exfalso; lra].
  - destruct (Req_EM_T (h + 0 + - (l + - 0)) 0); [exfalso; lra|]. reflexivity.
Qed.
Lemma fit_two a b : (a < b)%R -> fit (fit (auto (None, None)) (Fin a)) (Fin b) = auto (seen a b).
Proof. intro H. unfold auto, fit, seen. cbn [h_min h_max s_kind s_min s_max s_log_base s_inverted s_padding s_categories s_cmap fst snd xlt]. repeat destruct Rlt_dec; try (exfalso; lra). reflexivity. Qed.
Lemma dot_fits p x : (x = "1" \/ x = "3") -> s_kind (p_sx p) = Linear -> s_kind (p_sy p) = Linear ->
  lines_autorange demo demo_env p (dot_at x "1") = Ret (mk_plot (fit (p_sx p) (Fin (if String.eqb x "1" then 1 else 3))) (fit (p_sy p) (Fin 1)) (p_margins p) (p_stack p)).
Proof.
  intros X KX KY. destruct (dot_conf p x X) as (c & b & C & _ & _ & _ & _ & _ & _ & F & G). unfold lines_autorange. rewrite C. cbn [bind]. unfold fit_x, fit_y.
  rewrite (F _ KX). cbn [bind p_sy]. rewrite (G _ KY). reflexivity.
Qed.
Definition open_y : list expr := [w1 "limit-y" ["0"; "10"]].
Lemma open_settings l : options (eval_table demo) (filter is_setting (open_y ++ map (fun x => dot x "1") l)) (demo_env, s_ "plot") = Ret (demo_env, s_ "plot").
Proof. assert (F : filter is_setting (open_y ++ map (fun x => dot x "1") l) = []) by (cbn [app open_y filter]; change (is_setting (w1 "limit-y" ["0"; "10"])) with false; cbv iota; induction l as [|x l IH]; cbn [map filter]; [reflexivity|exact IH]). rewrite F. reflexivity. Qed.
Lemma open_wf l : well_formed (open_y ++ map (fun x => dot x "1") l).
Proof. unfold well_formed, open_y. cbn [app]. apply Forall_cons; [discriminate|]. induction l as [|x l IH]; cbn [map]; constructor; [discriminate|exact IH]. Qed.
Definition of_y : scale := mk_scale Linear (Some (Fin 0)) (Some (Fin 10)) (Fin 10) false (Fin 0) None None [] [].
Lemma y_ranges h g : fit (p_sy (between h g)) (Fin 1) = p_sy (between h (match fst g with None => Some (Fin 1) | Some m => if xlt (Fin 1) m then Some (Fin 1) else Some m end,
   match snd g with None => Some (Fin 1) | Some m => if xlt m (Fin 1) then Some (Fin 1) else Some m end)).
Proof. reflexivity. Qed.
Lemma dot_alone : exists c, eval_exprs demo demo_env (open_y ++ [dot "1" "1"]) = Ret (demo_env, [c]) /\ first_nan c = true.
Proof.
  assert (P : options (prepare_table demo demo_env) (open_y ++ [dot "1" "1"]) plot0 = Ret (between (seen 1 1) (seen 1 1))).
  { unfold open_y. cbn [app map]. rewrite options_cons. change (option_of (w1 "limit-y" ["0"; "10"])) with (Some (s_ "limit-y", [ELit (s_ "0"); ELit (s_ "10")])). cbv iota beta.
    change (assoc (s_ "limit-y") (prepare_table demo demo_env)) with (Some (updf p_sy (rd_limits demo) set_sy)). cbv iota beta.
    change (updf p_sy (rd_limits demo) set_sy [ELit (s_ "0"); ELit (s_ "10")] plot0) with (Ret (between (None, None) (None, None))). cbn [bind].
    rewrite options_cons. change (option_of (dot "1" "1")) with (Some (s_ "lines", dot_at "1" "1")). cbv iota beta.
    change (assoc (s_ "lines") (prepare_table demo demo_env)) with (Some (ranges (lines_autorange demo demo_env))). cbv iota beta. unfold ranges.
    rewrite dot_fits; [|now left|reflexivity|reflexivity]. cbn [bind]. reflexivity. }
  destruct (dot_draws (between (seen 1 1) (seen 1 1)) "1" 1 1) as (c & D & N); [now left|eauto|]. exists c. split.
  - eapply (eval_back demo _ _ _ _ (between (seen 1 1) (seen 1 1)) _ (open_wf ["1"])); [discriminate|apply (open_settings ["1"])|exact P|].
    unfold open_y. cbn [app map]. rewrite options_cons. change (option_of (w1 "limit-y" ["0"; "10"])) with (Some (s_ "limit-y", [ELit (s_ "0"); ELit (s_ "10")])). cbv iota beta.
    change (assoc (s_ "limit-y") (draw_table demo demo_env)) with (@None (cmd (plot * list draw_command))). cbv iota beta.
    rewrite options_cons. change (option_of (dot "1" "1")) with (Some (s_ "lines", dot_at "1" "1")). cbv iota beta.
    change (assoc (s_ "lines") (draw_table demo demo_env)) with (Some (shows (lines_draw demo demo_env))). cbv iota beta. unfold shows. cbn [fst snd]. rewrite D. reflexivity.
  - rewrite N. change (if String.eqb "1" "1" then 1%R else 3%R) with 1%R. destruct (Req_EM_T 1 1); [reflexivity|exfalso; lra].
Qed.
Lemma dots_both : exists c c', eval_exprs demo demo_env (open_y ++ [dot "1" "1"; dot "3" "1"]) = Ret (demo_env, [c; c']) /\ first_nan c = false /\ first_nan c' = false.
Proof.
  assert (P : exists g, options (prepare_table demo demo_env) (open_y ++ [dot "1" "1"; dot "3" "1"]) plot0 = Ret (between (seen 1 3) g)).
  { unfold open_y. cbn [app map]. rewrite options_cons. change (option_of (w1 "limit-y" ["0"; "10"])) with (Some (s_ "limit-y", [ELit (s_ "0"); ELit (s_ "10")])). cbv iota beta.
    change (assoc (s_ "limit-y") (prepare_table demo demo_env)) with (Some (updf p_sy (rd_limits demo) set_sy)). cbv iota beta.
    change (updf p_sy (rd_limits demo) set_sy [ELit (s_ "0"); ELit (s_ "10")] plot0) with (Ret (between (None, None) (None, None))). cbn [bind].
    rewrite options_cons. change (option_of (dot "1" "1")) with (Some (s_ "lines", dot_at "1" "1")). cbv iota beta.
    change (assoc (s_ "lines") (prepare_table demo demo_env)) with (Some (ranges (lines_autorange demo demo_env))). cbv iota beta. unfold ranges.
    rewrite dot_fits; [|now left|reflexivity|reflexivity]. cbn [bind].
    rewrite options_cons. change (option_of (dot "3" "1")) with (Some (s_ "lines", dot_at "3" "1")). cbv iota beta.
    change (assoc (s_ "lines") (prepare_table demo demo_env)) with (Some (ranges (lines_autorange demo demo_env))). cbv iota beta. unfold ranges.
    rewrite dot_fits; [|now right|reflexivity|reflexivity]. cbn [bind]. rewrite options_nil. cbn [p_sx p_sy p_margins p_stack between String.eqb].
    set (s := p_sy (between (None, None) (None, None))). exists (h_min (fit (fit s (Fin 1)) (Fin 1)), h_max (fit (fit s (Fin 1)) (Fin 1))). f_equal.
    transitivity (mk_plot (auto (seen 1 3)) (fit (fit s (Fin 1)) (Fin 1)) (Fin 0, Fin 0, Fin 0, Fin 0) []); [|reflexivity].
    f_equal. exact (fit_two 1 3 ltac:(lra)). }
  destruct P as (g & P).
  destruct (dot_draws (between (seen 1 3) g) "1" 1 3) as (c & D & N); [now left|eauto|]. destruct (dot_draws (between (seen 1 3) g) "3" 1 3) as (c' & D' & N'); [now right|eauto|]. exists c, c'. split; [|split].
  - eapply (eval_back demo _ _ _ _ (between (seen 1 3) g) _ (open_wf ["1"; "3"])); [discriminate|apply (open_settings ["1"; "3"])|exact P|].
    unfold open_y. cbn [app map]. rewrite options_cons. change (option_of (w1 "limit-y" ["0"; "10"])) with (Some (s_ "limit-y", [ELit (s_ "0"); ELit (s_ "10")])). cbv iota beta.
    change (assoc (s_ "limit-y") (draw_table demo demo_env)) with (@None (cmd (plot * list draw_command))). cbv iota beta.
    rewrite options_cons. change (option_of (dot "1" "1")) with (Some (s_ "lines", dot_at "1" "1")). cbv iota beta.
    change (assoc (s_ "lines") (draw_table demo demo_env)) with (Some (shows (lines_draw demo demo_env))). cbv iota beta. unfold shows. cbn [fst snd]. rewrite D. cbn [bind].
    rewrite options_cons. change (option_of (dot "3" "1")) with (Some (s_ "lines", dot_at "3" "1")). cbv iota beta.
    change (assoc (s_ "lines") (draw_table demo demo_env)) with (Some (shows (lines_draw demo demo_env))). cbv iota beta. unfold shows. cbn [fst snd]. rewrite D'. reflexivity.
  - rewrite N. destruct (Req_EM_T 1 3); [exfalso; lra|]. reflexivity.
  - rewrite N'. destruct (Req_EM_T 1 3); [exfalso; lra|]. reflexivity.
Qed.
Lemma dot_any p x : (x = "1" \/ x = "3") -> s_kind (p_sx p) = Linear -> s_kind (p_sy p) = Linear -> p_margins p = (Fin 0, Fin 0, Fin 0, Fin 0) -> p_stack p = [] ->
  exists c, lines_draw demo demo_env p (dot_at x "1") = Ret [c].
Proof.
  intros X KX KY M S. destruct (dot_conf p x X) as (c & b & C & CX & CY & Z & L & U & V & _). unfold lines_draw. rewrite C. cbn [bind].
  rewrite U, V, CX, CY by (rewrite ?CX, ?CY; assumption). unfold scale_translate. rewrite KX, KY. cbn [bind].
  unfold draw_labels. rewrite Z, L. destruct (xlt (Fin 0) (Fin 0)) eqn:Q; [unfold xlt in Q; destruct (Rlt_dec 0 0); [lra|discriminate]|].
  assert (P : plot_clip demo demo_env p = plot_clip demo demo_env demo_plot).
  { destruct p as [sx sy mg st]. cbn [p_margins p_stack] in M, S. subst mg st. reflexivity. }
  rewrite P, demo_clip. cbn -[translate_linear place_pt rect shape_of]. eexists. reflexivity.
Qed.
(** The two dots with given limits, a background between them. *)
Definition limited (l : list expr) : list expr := [w1 "limit-x" ["0"; "10"]; w1 "limit-y" ["0"; "5"]] ++ l.
Lemma dots_limited : exists c d d', eval_exprs demo demo_env (limited [dot "1" "1"; back; dot "3" "1"]) = Ret (demo_env, [d; c; d']).
Proof.
  assert (P : exists p, options (prepare_table demo demo_env) (limited [dot "1" "1"; back; dot "3" "1"]) plot0 = Ret p /\
    s_kind (p_sx p) = Linear /\ s_kind (p_sy p) = Linear /\ p_margins p = (Fin 0, Fin 0, Fin 0, Fin 0) /\ p_stack p = []).
  { unfold limited. cbn [app]. rewrite options_cons. change (option_of (w1 "limit-x" ["0"; "10"])) with (Some (s_ "limit-x", [ELit (s_ "0"); ELit (s_ "10")])). cbv iota beta.
    change (assoc (s_ "limit-x") (prepare_table demo demo_env)) with (Some (updf p_sx (rd_limits demo) set_sx)). cbv iota beta.
    change (updf p_sx (rd_limits demo) set_sx [ELit (s_ "0"); ELit (s_ "10")] plot0) with (Ret (set_sx (p_sy (between (None, None) (None, None))) plot0)). cbn [bind].
    rewrite options_cons. change (option_of (w1 "limit-y" ["0"; "5"])) with (Some (s_ "limit-y", [ELit (s_ "0"); ELit (s_ "5")])). cbv iota beta.
    change (assoc (s_ "limit-y") (prepare_table demo demo_env)) with (Some (updf p_sy (rd_limits demo) set_sy)). cbv iota beta.
    match goal with |- context [updf p_sy ?f ?g ?a ?p] => let v := eval cbv [updf] in (updf p_sy f g a p) in change (updf p_sy f g a p) with v end.
    match goal with |- context [rd_limits demo ?a ?s] => set (r := rd_limits demo a s) end.
    assert (R : exists s', r = Ret s' /\ s_kind s' = Linear) by (eexists; split; reflexivity). destruct R as (s' & -> & K). cbn [bind].
    rewrite options_cons. change (option_of (dot "1" "1")) with (Some (s_ "lines", dot_at "1" "1")). cbv iota beta.
    change (assoc (s_ "lines") (prepare_table demo demo_env)) with (Some (ranges (lines_autorange demo demo_env))). cbv iota beta. unfold ranges.
    rewrite dot_fits; [|now left|reflexivity|exact K]. cbn [bind].
    rewrite options_cons. change (option_of back) with (Some (s_ "background", [w1 "color" ["#ff0000"]])). cbv iota beta.
    change (assoc (s_ "background") (prepare_table demo demo_env)) with (@None (cmd plot)). cbv iota beta.
    rewrite options_cons. change (option_of (dot "3" "1")) with (Some (s_ "lines", dot_at "3" "1")). cbv iota beta.
    change (assoc (s_ "lines") (prepare_table demo demo_env)) with (Some (ranges (lines_autorange demo demo_env))). cbv iota beta. unfold ranges.
    rewrite dot_fits; [|now right|reflexivity|exact K]. cbn [bind]. rewrite options_nil. eexists. split; [reflexivity|]. split; [reflexivity|]. split; [exact K|]. split; reflexivity. }
  destruct P as (p & P & KX & KY & M & S).
  destruct (dot_any p "1") as (d & D); [now left|assumption..|]. destruct (dot_any p "3") as (d' & D'); [now right|assumption..|].
  assert (B : exists c, set_background demo demo_env p [w1 "color" ["#ff0000"]] = Ret [c]).
  { unfold set_background.
    assert (Q : plot_clip demo demo_env p = plot_clip demo demo_env demo_plot) by (clear -M S; destruct p as [sx sy mg st]; cbn [p_margins p_stack] in M, S; subst mg st; reflexivity).
    eexists. rewrite Q. reflexivity. }
  destruct B as (c & B). exists c, d, d'. eapply (eval_back demo _ _ _ _ p).
  - unfold well_formed, limited. cbn [app]. repeat (apply Forall_cons; [discriminate|]). constructor.
  - discriminate.
  - reflexivity.
  - exact P.
  - unfold limited. cbn [app]. rewrite options_cons. change (option_of (w1 "limit-x" ["0"; "10"])) with (Some (s_ "limit-x", [ELit (s_ "0"); ELit (s_ "10")])). cbv iota beta.
    change (assoc (s_ "limit-x") (draw_table demo demo_env)) with (@None (cmd (plot * list draw_command))). cbv iota beta.
    rewrite options_cons. change (option_of (w1 "limit-y" ["0"; "5"])) with (Some (s_ "limit-y", [ELit (s_ "0"); ELit (s_ "5")])). cbv iota beta.
    change (assoc (s_ "limit-y") (draw_table demo demo_env)) with (@None (cmd (plot * list draw_command))). cbv iota beta.
    rewrite options_cons. change (option_of (dot "1" "1")) with (Some (s_ "lines", dot_at "1" "1")). cbv iota beta.
    change (assoc (s_ "lines") (draw_table demo demo_env)) with (Some (shows (lines_draw demo demo_env))). cbv iota beta. unfold shows at 1. cbn [fst snd]. rewrite D. cbn [bind].
    rewrite options_cons. change (option_of back) with (Some (s_ "background", [w1 "color" ["#ff0000"]])). cbv iota beta.
    change (assoc (s_ "background") (draw_table demo demo_env)) with (Some (shows (set_background demo demo_env))). cbv iota beta. unfold shows at 1. cbn [fst snd]. rewrite B. cbn [bind].
    rewrite options_cons. change (option_of (dot "3" "1")) with (Some (s_ "lines", dot_at "3" "1")). cbv iota beta.
    change (assoc (s_ "lines") (draw_table demo demo_env)) with (Some (shows (lines_draw demo demo_env))). cbv iota beta. unfold shows. cbn [fst snd]. rewrite D'. reflexivity.
Qed.
