(** Lemmas about the options of the legend command. *)
From Coq Require Import Reals Lra.
From Verif Require Import Base Num Sexpr_Model Dispatch_Model Dispatch_Spec Data_Model Scale_Model Units_Model Color_Model
  Geo_Model Svg_Model Legend_Model Legend_Spec Legend_Proofs Legend_Props Plist_Model Cmd_Model Cmd_Spec Cmd_Proofs Style_Model Plot_Model Plot_Spec Axis_Model Eval_Model Eval_Spec Eval_Proofs Eval_Props.
Local Open Scope R_scope.

Lemma run_proj_last {S T} (g : S -> T) fns (k : string) (rd : list expr -> outcome T) e s s' :
  projects g fns [(s_ k, fun a (_ : T) => rd a)] -> run fns e s = Ret s' -> last_or k e (fun a v => rd a = Ret v) (g s) (g s').
Proof. intros P H. unfold last_or. apply (run_proj g fns _ P) in H. now apply options_last in H. Qed.

Lemma item_ok W E a i : item_configure W E a = Ret i -> item_of W E a i.
Proof.
  unfold item_configure. intro H. unfold item_of.
  assert (X : forall T (g : item -> T) keys rd, projects g (item_table W E) (one_of keys rd) -> options (one_of keys rd) a (g (item0 W E)) = Ret (g i)).
  { intros T g keys rd P. exact (run_proj g _ _ P _ _ _ H). }
  repeat split.
  - refine (run_proj_last i_label _ "label" expr_to_string _ _ _ _ H). unfold item_table; projection.
  - refine (run_proj_last i_align _ "label-align" (expr_to_enum align_lr) _ _ _ _ H). unfold item_table; projection.
  - refine (run_proj_last i_margin _ "label-margin" (rd_size W E) _ _ _ _ H). unfold item_table; projection.
  - refine (X _ i_color _ _ _). unfold item_table, one_of; cbn [map]; projection.
  - refine (X _ i_font _ _ _). unfold item_table, one_of; cbn [map]; projection.
  - refine (run_proj_last i_size _ "label-font-size" (rd_font_size W E) _ _ _ _ H). unfold item_table; projection.
  - refine (run_proj_last i_marker _ "marker-shape" (marker_configure W) _ _ _ _ H). unfold item_table; projection.
  - refine (run_proj_last i_malign _ "marker-align" (expr_to_enum align_lr) _ _ _ _ H). unfold item_table; projection.
  - refine (run_proj_last i_mmargin _ "marker-margin" (rd_size W E) _ _ _ _ H). unfold item_table; projection.
  - refine (X _ i_mcolor _ _ _). unfold item_table, one_of; cbn [map]; projection.
  - refine (run_proj_last i_msize _ "marker-size" (rd_font_size W E) _ _ _ _ H). unfold item_table; projection.
Qed.

(** Taking an entry of the table apart, for a configuration written out in full. *)
Ltac legend_entry :=
  let a := fresh "a" in let s := fresh "s" in let s' := fresh "s'" in let H := fresh "H" in
  intros a s s' H; cbn [fst snd] in *;
  destruct s as [pos rp cp fl [[[m0 m1] m2] m3] [[[p0 p1] p2] p3] [[[b0 b1] b2] b3] bg its];
  look;
  cbv beta iota zeta delta [upd updf call_each c_side side4 set_side4 k_pos k_rowpad k_colpad k_flow k_margins k_padding k_borders k_bg k_items
    set_k_pos set_k_rowpad set_k_colpad set_k_flow set_k_margins set_k_padding set_k_borders set_k_bg set_k_items] in H;
  split_binds; subst;
  cbv beta iota zeta delta [upd updf side4 k_pos k_rowpad k_colpad k_flow k_margins k_padding k_borders k_bg k_items];
  try reflexivity;
  try congruence;
  repeat match goal with A : ?l = Ret _ |- context [?l] => rewrite A; cbn [bind] end;
  try congruence.
Ltac legend_projection := unfold projects, legend_table; repeat (apply Forall_cons; [legend_entry|]); try apply Forall_nil.

Lemma legend_items W E e c : run (legend_table W E) e (legend0 W E) = Ret c -> Forall2 (item_of W E) (all_args "item" e) (k_items c).
Proof.
  intro H. apply (run_proj k_items (legend_table W E) [(s_ "item", fun a l => let* i := item_configure W E a in Ret (l ++ [i]))]) in H; [|legend_projection].
  change (k_items (legend0 W E)) with (@nil item) in H.
  assert (G : forall l acc r, options [(s_ "item", fun a l => let* i := item_configure W E a in Ret (l ++ [i]))] l acc = Ret r ->
    exists its, r = acc ++ its /\ Forall2 (item_of W E) (all_args "item" l) its).
  { induction l as [|x l IH]; intros acc r Q.
    - injection Q as <-. exists []. rewrite app_nil_r. split; [reflexivity|constructor].
    - rewrite options_cons in Q. unfold all_args. cbn [flat_map]. fold (all_args "item" l). destruct (option_of x) as [[k0 a]|]; [|discriminate]. cbn [assoc] in Q.
      destruct (str_eqb_spec k0 (s_ "item")) as [->|N].
      + inv_bind Q. inv_bind A. injection A as <-. destruct (IH _ _ Q) as (its & -> & F). exists (v0 :: its). rewrite <- app_assoc. split; [reflexivity|].
        cbn [app]. constructor; [now apply item_ok|exact F].
      + exact (IH _ _ Q). }
  destruct (G _ _ _ H) as (its & -> & F). exact F.
Qed.

Lemma legend_measures W E e c : run (legend_table W E) e (legend0 W E) = Ret c -> legend_of W E e (geometry c) (k_borders c).
Proof.
  intro H. unfold legend_of, geometry, four_sides.
  assert (X : forall T (g : legend_cfg -> T) sub, projects g (legend_table W E) sub -> options sub e (g (legend0 W E)) = Ret (g c)).
  { intros T g sub P. exact (run_proj g _ _ P _ _ _ H). }
  cbn [lg_h lg_v lg_row_pad lg_col_pad lg_flow lg_margins lg_padding lg_borders].
  split; [|split; [|split; [|split; [|split; [|split; [|split]]]]]].
  - rewrite <- surjective_pairing. refine (X _ k_pos _ _). legend_projection.
  - refine (run_proj_last k_rowpad _ "item-row-padding" (rd_size W E) _ _ _ _ H). legend_projection.
  - refine (run_proj_last k_colpad _ "item-column-padding" (rd_size W E) _ _ _ _ H). legend_projection.
  - refine (run_proj_last k_flow _ "item-flow" expr_to_switch _ _ _ _ H). legend_projection.
  - assert (Y : forall i sub, projects (fun c => side4 (k_margins c) i) (legend_table W E) sub -> options sub e (side4 (k_margins (legend0 W E)) i) = Ret (side4 (k_margins c) i)) by (intros i sub; exact (X _ (fun c => side4 (k_margins c) i) sub)).
    destruct (k_margins c) as [[[t r] b] l]. repeat split.
    + refine (Y 0%nat _ _). clear. legend_projection.
    + refine (Y 1%nat _ _). clear. legend_projection.
    + refine (Y 2%nat _ _). clear. legend_projection.
    + refine (Y 3%nat _ _). clear. legend_projection.
  - assert (Y : forall i sub, projects (fun c => side4 (k_padding c) i) (legend_table W E) sub -> options sub e (side4 (k_padding (legend0 W E)) i) = Ret (side4 (k_padding c) i)) by (intros i sub; exact (X _ (fun c => side4 (k_padding c) i) sub)).
    destruct (k_padding c) as [[[t r] b] l]. repeat split.
    + refine (Y 0%nat _ _). clear. legend_projection.
    + refine (Y 1%nat _ _). clear. legend_projection.
    + refine (Y 2%nat _ _). clear. legend_projection.
    + refine (Y 3%nat _ _). clear. legend_projection.
  - assert (Y : forall i sub, projects (fun c => side4 (k_borders c) i) (legend_table W E) sub -> options sub e (side4 (k_borders (legend0 W E)) i) = Ret (side4 (k_borders c) i)) by (intros i sub; exact (X _ (fun c => side4 (k_borders c) i) sub)).
    destruct (k_borders c) as [[[t r] b] l]. repeat split.
    + refine (Y 0%nat _ _). clear. legend_projection.
    + refine (Y 1%nat _ _). clear. legend_projection.
    + refine (Y 2%nat _ _). clear. legend_projection.
    + refine (Y 3%nat _ _). clear. legend_projection.
  - reflexivity.
Qed.
