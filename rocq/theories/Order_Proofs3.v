(** Options about different things can be exchanged: grid, background, axis, legend. *)
From Coq Require Import Reals Permutation.
From Verif Require Import Base Num Sexpr_Model Dispatch_Model Data_Model Scale_Model Units_Model Svg_Model Legend_Model Cmd_Model Cmd_Spec Cmd_Proofs
  Style_Model Plot_Model Axis_Model Eval_Model Order_Spec Order_Proofs Order_Proofs2.
Local Open Scope string_scope.
Local Open Scope list_scope.

Section Entries.
  Context {S : Type} (V : list (view S)) (A : list string).
  Notation on_ := (same_if (on A) V).
  Notation off_ := (same_if (off A) V).
  Lemma own_pure {T} (get : S -> T) (h : list expr -> T -> T) put :
    (forall a s, off_ s (put (h a (get s)) s)) ->
    (forall a s t, on_ s t -> on_ (put (h a (get s)) s) (put (h a (get t)) t)) ->
    own V A (updf get (fun e s => Ret (h e s)) put).
  Proof.
    intros F L. apply own_updf.
    - intros a v s H. injection H as <-. apply F.
    - intros a v s t Sm H. injection H as <-. eexists. split; [reflexivity|]. auto.
  Qed.
  Lemma own_inner {T U} (get : S -> T) (col : T -> U) (rd : list expr -> U -> outcome U) h put :
    (forall v s, off_ s (put (h v (get s)) s)) -> (forall s t, on_ s t -> col (get s) = col (get t)) ->
    (forall v s t, on_ s t -> on_ (put (h v (get s)) s) (put (h v (get t)) t)) ->
    own V A (updf get (fun e s => let* v := rd e (col s) in Ret (h v s)) put).
  Proof.
    intros F G L. apply own_updf.
    - intros a v s H. apply bind_ret in H. destruct H as (x & _ & H). injection H as <-. apply F.
    - intros a v s t Sm H. apply bind_ret in H. destruct H as (x & R & H). injection H as <-. rewrite <- (G _ _ Sm), R.
      eexists. split; [reflexivity|]. auto.
  Qed.
  (** What is read does not depend on the state. *)
  Lemma own_const {T U} (get : S -> T) (rd : list expr -> T -> outcome T) (h : U -> T -> T) put :
    (forall a, exists o, forall s, rd a s = let* v := o in Ret (h v s)) ->
    (forall v s, off_ s (put (h v (get s)) s)) ->
    (forall v s t, on_ s t -> on_ (put (h v (get s)) s) (put (h v (get t)) t)) ->
    own V A (updf get rd put).
  Proof.
    intros R F L. apply own_updf.
    - intros a v s H. destruct (R a) as [o X]. rewrite X in H. apply bind_ret in H. destruct H as (x & _ & H). injection H as <-. apply F.
    - intros a v s t Sm H. destruct (R a) as [o X]. rewrite X in H |- *. apply bind_ret in H. destruct H as (x & Y & H). injection H as <-. rewrite Y.
      eexists. split; [reflexivity|]. auto.
  Qed.
End Entries.

Definition grid_views : list (view grid_cfg) :=
  scale_views "x" gr_sx ++ scale_views "y" gr_sy ++ line_views "line" gr_stroke ++ [mk_view "x ticks" gr_lx; mk_view "y ticks" gr_ly].
Definition background_views : list (view (stroke_style * Svg_Model.fill_style)) :=
  line_views "line" fst ++ [mk_view "fill" snd].
Definition item_views : list (view item) :=
  [mk_view "font" i_font; mk_view "label" i_label; mk_view "label align" i_align; mk_view "label margin" i_margin;
   mk_view "label colour" i_color; mk_view "label size" i_size; mk_view "marker shape" i_marker; mk_view "marker align" i_malign;
   mk_view "marker margin" i_mmargin; mk_view "marker colour" i_mcolor; mk_view "marker size" i_msize].

Definition axis_scale_views {S} (g : S -> scale) : list (view S) :=
  [mk_view "minimum" (fun s => s_min (g s)); mk_view "maximum" (fun s => s_max (g s)); mk_view "kind" (fun s => kind_of (g s));
   mk_view "padding" (fun s => s_padding (g s)); mk_view "hints" (fun s => hints_of (g s))].
Definition axis_views : list (view axis) :=
  axis_scale_views a_scale ++
  [mk_view "align" a_align; mk_view "enable" a_enable;
   mk_view "title" a_title; mk_view "title colour" a_tcolor; mk_view "title offset" a_toff; mk_view "title padding" a_tpad;
   mk_view "title font" a_tfont; mk_view "title size" a_tsize; mk_view "title rotation" a_trotate;
   mk_view "tick offset" a_tickoff; mk_view "tick length" a_ticklen; mk_view "tick placement" a_tickplace;
   mk_view "label placement" a_lplace; mk_view "label format" a_lformat; mk_view "label attach" a_attach; mk_view "label offset" a_loff;
   mk_view "label padding" a_lpad; mk_view "label rotation" a_lrotate; mk_view "label font" a_lfont; mk_view "label size" a_lsize;
   mk_view "label colour" a_lcolor] ++ line_views "border" a_border.
Definition side_views {S A} (n : string) (g : S -> A * A * A * A) : list (view S) :=
  [mk_view ("top " ++ n) (fun s => side4 (g s) 0); mk_view ("right " ++ n) (fun s => side4 (g s) 1);
   mk_view ("bottom " ++ n) (fun s => side4 (g s) 2); mk_view ("left " ++ n) (fun s => side4 (g s) 3)].
Definition legend_views : list (view legend_cfg) :=
  side_views "margin" k_margins ++ side_views "padding" k_padding ++
  side_views "colour" (fun c => map4 s_color (k_borders c)) ++ side_views "width" (fun c => map4 s_width (k_borders c)) ++
  side_views "dash" (fun c => map4 dash_of (k_borders c)) ++
  [mk_view "position" k_pos; mk_view "row padding" k_rowpad; mk_view "column padding" k_colpad; mk_view "flow" k_flow;
   mk_view "background" k_bg; mk_view "items" k_items].

Ltac views ::= cbv [grid_views background_views item_views axis_views axis_scale_views side_views legend_views source_views scale_views line_views label_views mark_views app].
Ltac views_in H ::= cbv [grid_views background_views item_views axis_views axis_scale_views side_views legend_views source_views scale_views line_views label_views mark_views app] in H.

Section Tables.
  Variable W : world.
  Variable E : env.
  Lemma grid_owned : owned grid_views about_grid (grid_table W E).
  Proof. unfold grid_table, scale_entries. cbv zeta beta. table. Qed.
  Lemma grid_whole : whole grid_views.
  Proof.
    everything. destruct s as [[] [] ? ? []], t as [[] [] ? ? []].
    unfold kind_of, hints_of, dash_of in *. cbn in *. untuple. subst. reflexivity.
  Qed.
  Lemma background_owned : owned background_views about_background (background_table W E).
  Proof. unfold background_table. cbv zeta beta. table. Qed.
  Lemma background_whole : whole background_views.
  Proof.
    everything. destruct s as [[] ?], t as [[] ?].
    unfold kind_of, hints_of, dash_of in *. cbn in *. untuple. subst. reflexivity.
  Qed.
  Lemma item_owned : owned item_views about_item (item_table W E).
  Proof. unfold item_table. cbv zeta beta. table. Qed.
  Lemma item_whole : whole item_views.
  Proof. everything. destruct s, t. cbn in *. congruence. Qed.

  Lemma own_border {S} (V : list (view S)) A get put :
    (forall s, same_if (off A) V s (put (ss_with_width (Fin 0) (get s)) s)) -> (forall s, same_if (off A) V s (put (get s) s)) ->
    (forall s t, same_if (on A) V s t -> same_if (on A) V (put (ss_with_width (Fin 0) (get s)) s) (put (ss_with_width (Fin 0) (get t)) t)) ->
    (forall s t, same_if (on A) V s t -> same_if (on A) V (put (get s) s) (put (get t) t)) ->
    own V A (updf get border_style_read put).
  Proof.
    intros F1 F2 L1 L2. apply (own_pure V A get (fun e s => if is_word e "none" then ss_with_width (Fin 0) s else s)).
    - intros a s. destruct (is_word a "none"); auto.
    - intros a s t. destruct (is_word a "none"); auto.
  Qed.
End Tables.
Ltac axis_cmds := unfold c_scale, c_limit, c_limit_min, c_limit_max, c_lfont, c_tfont, c_lplace, c_tickplace, c_lformat, c_attach, c_loff,
    c_lpad, c_lrotate, c_lsize, c_lcolor, c_tickoff, c_ticklen, c_title, c_tsize, c_tcolor, c_toff, c_tpad, c_trotate, c_bwidth, c_bcolor, c_bstyle.
Ltac entry ::=
  match goal with
  | |- own _ _ (upd _ _) => apply own_upd; goal1
  | |- own _ _ (call_each _) => apply own_call; repeat (apply Forall_cons; [entry|]); apply Forall_nil
  | |- own _ _ (updf _ (rd_kind _) _) => apply own_kind; goal1
  | |- own _ _ (updf _ (rd_limits _) _) => apply own_limits; goal1
  | |- own _ _ (updf _ (stroke_style_read _ _) _) => apply own_stroke; goal1
  | |- own _ _ (updf _ border_style_read _) => apply own_border; goal1
  | |- own _ _ (updf _ (fun _ _ => bind _ _) _) => first [apply own_part; goal1 | apply own_inner; goal1]
  | |- own _ _ (updf _ _ _) => apply own_whole; goal1
  end.
Section Tables2.
  Variable W : world.
  Variable E : env.
  Lemma axis_owned : owned axis_views about_one_axis (axis_table W E).
  Proof. unfold axis_table. axis_cmds. table. Qed.
  Lemma axis_whole : whole axis_views.
  Proof.
    everything. destruct s as [? ? [] ? ? ? ? ? ? ? ? ? ? ? ? ? ? ? ? ? ? ? []], t as [? ? [] ? ? ? ? ? ? ? ? ? ? ? ? ? ? ? ? ? ? ? []].
    unfold kind_of, hints_of, dash_of in *. cbn in *. untuple. subst. reflexivity.
  Qed.
End Tables2.

(** The legend: its sides are taken apart first. *)
Ltac open_legend := repeat match goal with s : legend_cfg |- _ =>
  destruct s as [? ? ? ? [[[? ?] ?] ?] [[[? ?] ?] ?] [[[? ?] ?] ?] ? ?] end.
Ltac goal1 ::= intros; open_legend; repeat match goal with H : same_if _ _ _ _ |- _ => views_in H; flags_in H; cbn -[kind_of hints_of dash_of both_of] in H; eqs end;
  views; flags; finish_.
Section Legend.
  Variable W : world.
  Variable E : env.
  Lemma legend_owned : owned legend_views about_legend (legend_table W E).
  Proof.
    unfold legend_table, c_side. cbv zeta beta.
    change (fun (e : list expr) (c : legend_cfg) => let* i := item_configure W E e in Ret (set_k_items (k_items c ++ [i]) c))
      with (upd (item_configure W E) (fun i c => set_k_items (k_items c ++ [i]) c)).
    table.
  Qed.
  Lemma legend_whole : whole legend_views.
  Proof.
    everything. open_legend. repeat match goal with s : stroke_style |- _ => destruct s end. unfold dash_of in *. cbn in *. untuple. subst. reflexivity.
  Qed.
End Legend.
