(** Options about different things can be exchanged: plots and whole programs. *)
From Coq Require Import Reals Permutation.
From Verif Require Import Base Num Sexpr_Model Dispatch_Model Data_Model Scale_Model Units_Model Svg_Model Legend_Model Cmd_Model Cmd_Spec Cmd_Proofs
  Style_Model Plot_Model Axis_Model Eval_Model Eval_Spec Eval_Proofs Order_Spec Order_Proofs Order_Proofs2 Order_Proofs3 Order_Proofs4 Order_Proofs5.
Local Open Scope string_scope.
Local Open Scope list_scope.

Lemma owned_front {S} (V : list (view S)) T l1 l2 : Forall (entry_ok V T) l1 ->
  forallb (fun k => match topics_of T k with Some _ => false | None => true end) (map fst l2) = true -> owned V T (l1 ++ l2).
Proof.
  intros F1 N k f A H HT.
  assert (D : assoc k (l1 ++ l2) = match assoc k l1 with Some x => Some x | None => assoc k l2 end).
  { clear. induction l1 as [|[k' g] l IH]; cbn [assoc app]; [reflexivity|]. destruct (str_eqb k k'); auto. }
  rewrite D in H. destruct (assoc k l1) as [g|] eqn:E1; [apply (owned_all V T l1 F1 k); congruence|].
  exfalso. rewrite forallb_forall in N. apply assoc_In in H. specialize (N k). rewrite HT in N. discriminate N. apply in_map_iff. exists (k, f). auto.
Qed.

Definition plot_views : list (view plot) :=
  scale_views "x" p_sx ++ scale_views "y" p_sy ++ [mk_view "margins" p_margins; mk_view "stack" p_stack].
Definition draw_views : list (view (plot * list draw_command)) :=
  side_views "margin" (fun s => p_margins (fst s)) ++
  [mk_view "x scale" (fun s => p_sx (fst s)); mk_view "y scale" (fun s => p_sy (fst s)); mk_view "stack" (fun s => p_stack (fst s)); mk_view "drawn" snd].
Definition page_views : list (view (env * str)) :=
  [mk_view "class" snd; mk_view "size" (fun s => (l_width (e_layer (fst s)), l_height (e_layer (fst s))));
   mk_view "dpi" (fun s => l_dpi (e_layer (fst s))); mk_view "font" (fun s => e_font (fst s)); mk_view "font size" (fun s => l_font_size (e_layer (fst s)));
   mk_view "colours" (fun s => (e_bg (fst s), e_fg (fst s), e_text_color (fst s), e_palette (fst s), e_default (fst s)))].
Ltac views ::= cbv [plot_views draw_views page_views side_views scale_views app].
Ltac views_in H ::= cbv [plot_views draw_views page_views side_views scale_views app] in H.

Section Tables.
  Variable W : world.
  Variable E : env.
  Ltac open_all := repeat match goal with
    | p : plot |- _ => destruct p as [? ? [[[? ?] ?] ?] ?]
    | s : (plot * list draw_command)%type |- _ => destruct s end.
  Lemma prepare_owned : owned plot_views about_plot (prepare_table W E).
  Proof.
    unfold prepare_table. apply owned_front; [|vm_compute; reflexivity]. unfold scale_entries.
    repeat match goal with
    | |- Forall _ (_ :: _) => apply Forall_cons
    | |- Forall _ [] => apply Forall_nil
    end;
    unfold entry_ok; match goal with |- match topics_of ?T (fst (?k, ?f)) with Some A => own ?V A _ | None => _ end =>
      let r := eval vm_compute in (topics_of T k) in change (match r with Some A => own V A f | None => False end); cbn iota beta; entry end.
  Qed.
  Lemma prepare_whole : whole plot_views.
  Proof.
    everything. destruct s as [[] [] ? ?], t as [[] [] ? ?].
    unfold kind_of, hints_of in *. cbn in *. untuple. subst. reflexivity.
  Qed.
  Lemma draw_owned : owned draw_views about_plot (draw_table W E).
  Proof.
    unfold draw_table. apply owned_front; [|vm_compute; reflexivity]. unfold margin_entries. cbv zeta beta.
    repeat match goal with
    | |- Forall _ (_ :: _) => apply Forall_cons
    | |- Forall _ [] => apply Forall_nil
    end;
    unfold entry_ok; match goal with |- match topics_of ?T (fst (?k, ?f)) with Some A => own ?V A _ | None => _ end =>
      let r := eval vm_compute in (topics_of T k) in change (match r with Some A => own V A f | None => False end); cbn iota beta end.
    all: try (apply own_call; repeat (apply Forall_cons; [|]); try apply Forall_nil).
    all: apply own_upd; intros; repeat match goal with H : same_if _ _ _ _ |- _ => views_in H; flags_in H; eqs end; views; flags; open_all; cbn in *; repeat split; auto.
  Qed.
  Lemma draw_whole : whole draw_views.
  Proof.
    everything. open_all. cbn in *. subst. reflexivity.
  Qed.
  Lemma page_owned : owned page_views about_page (eval_table W).
  Proof.
    unfold eval_table. cbv zeta beta. apply owned_all.
    repeat match goal with
    | |- Forall _ (_ :: _) => apply Forall_cons
    | |- Forall _ [] => apply Forall_nil
    end;
    unfold entry_ok; match goal with |- match topics_of ?T (fst (?k, ?f)) with Some A => own ?V A _ | None => _ end =>
      let r := eval vm_compute in (topics_of T k) in change (match r with Some A => own V A f | None => False end); cbn iota beta end.
    - apply own_upd; goal1.
    - apply (own_const _ _ _ _ (fun (v : measure * measure) l => with_size l (fst v) (snd v))).
      + intro a. exists (ended (let '(l, o) := layer_resize_cmd (w_d W) (w_stod W) layer0 a in ((l_width l, l_height l), o))).
        intro l. unfold layer_resize_cmd. destruct a as [|a [|b [|c r]]]; try reflexivity.
        * unfold layer_resize_paper. destruct (assoc _ _) as [[w h]|]; reflexivity.
        * destruct (measure_read _ _ [a; b]); try reflexivity. destruct (measure_read _ _ [b]); reflexivity.
      + goal1.
      + goal1.
    - apply (own_const _ _ _ _ (fun (v : xr) l => mk_layer (l_width l) (l_height l) v (l_font_size l))).
      + intro a. exists (match a with [x] => match expr_to_float64 (w_stod W) [x] with Ret v => Ret v | _ => Err end | _ => Err end).
        intro l. unfold layer_set_dpi_cmd. destruct a as [|a [|b r]]; try reflexivity. destruct (expr_to_float64 _ [a]); reflexivity.
      + goal1.
      + goal1.
    - apply own_whole; goal1.
    - apply (own_const _ _ _ _ (fun (v : measure) l => mk_layer (l_width l) (l_height l) (l_dpi l) v)).
      + intro a. exists (match a with [x] => match measure_read (w_d W) (w_stod W) [x] with Ret v => Ret v | _ => Err end | _ => Err end).
        intro l. unfold layer_set_font_size_cmd. destruct a as [|a [|b r]]; try reflexivity. destruct (measure_read _ _ [a]); reflexivity.
      + goal1.
      + goal1.
  Qed.
  Lemma page_whole : whole page_views.
  Proof.
    everything. destruct s as [[[]] ?], t as [[[]] ?]. cbn in *. untuple. subst. reflexivity.
  Qed.
End Tables.
