(** C97: the settings of an axis come from their own options. *)
From Coq Require Import Reals Lra.
From Verif Require Import Base Num Num_Facts Sexpr_Model Dispatch_Model Dispatch_Spec Data_Model Data_Spec Scale_Model Scale_Spec
  Units_Model Color_Model Geo_Model Geo_Proofs Svg_Model Geojson_Model Format_Model Cmd_Model Cmd_Spec Cmd_Proofs Style_Model Plot_Model Plot_Spec Plot_Proofs
  Axis_Model Axis_Spec Axis_Place Axis_Table Axis_Proofs Axis_Props Axis_Look_Spec.
Local Open Scope R_scope.

Lemma assoc_map {S} (names : list str) (f : cmd S) n :
  assoc n (map (fun m => (m, f)) names) = if existsb (str_eqb n) names then Some f else None.
Proof.
  induction names as [|m r IH]; [reflexivity|]. cbn [map assoc existsb]. destruct (str_eqb n m); [reflexivity|]. exact IH.
Qed.
Lemma options_set_by {T} names (read : list expr -> outcome T) e : forall d v,
  options (map (fun n => (n, fun a _ => read a)) names) e d = Ret v -> set_by names read e d v.
Proof.
  unfold set_by. induction e as [|x r IH]; intros d v H.
  - rewrite options_nil in H. injection H as <-. reflexivity.
  - rewrite options_cons in H. cbn [last_of]. destruct (option_of x) as [[n a]|]; [|discriminate]. 
    match type of H with context [assoc n ?t] => change (assoc n t) with (assoc n (map (fun m => (m, (fun a (_ : T) => read a) : cmd T)) names)) in H end. rewrite assoc_map in H.
    destruct (existsb (str_eqb n) names).
    + inv_bind H. apply IH in H. destruct (last_of names r); [exact H|]. now rewrite H.
    + apply IH in H. now destruct (last_of names r).
Qed.

Lemma incl_by (a b : list str) : forallb (fun k => existsb (str_eqb k) b) a = true -> incl a b.
Proof.
  intros H k I. rewrite forallb_forall in H. apply H, existsb_exists in I as (x & I & Q). destruct (str_eqb_spec k x); [now subst|discriminate].
Qed.

(** One field of the table of a side. [H] says which settings change it, and how. *)
Definition acts {S T} (g : S -> T) (h : option (cmd T)) (c : cmd S) : Prop :=
  forall a s s', c a s = Ret s' -> match h with Some h => h a (g s) = Ret (g s') | None => g s' = g s end.
Definition sub_table {T} (of : str -> list str) (H : string -> option (cmd T)) (ns : list string) : list (str * cmd T) :=
  flat_map (fun n => match H n with Some h => map (fun k => (k, h)) (of (s_ n)) | None => [] end) ns.
Lemma sub_lookup {T} (of : str -> list str) (H : string -> option (cmd T)) ns extra n k :
  In n ns -> In k (of (s_ n)) -> (forall m, In m ns -> In k (of (s_ m)) -> m = n) -> ~ In k (map fst extra) ->
  assoc k (sub_table of H ns ++ extra) = H n.
Proof.
  intros I K D X.
  assert (Nx : assoc k extra = None) by (now apply assoc_none_keys).
  induction ns as [|m r IH]; [destruct I|]. unfold sub_table. cbn [flat_map]. fold (sub_table of H r). rewrite <- app_assoc, assoc_app.
  assert (M : assoc k (match H m with Some h => map (fun k => (k, h)) (of (s_ m)) | None => [] end) = if existsb (str_eqb k) (of (s_ m)) then H m else None).
  { destruct (H m); [apply assoc_map|]. now destruct existsb. }
  rewrite M. clear M. destruct (existsb (str_eqb k) (of (s_ m))) eqn:Q.
  - apply existsb_exists in Q as (k' & Q1 & Q2). destruct (str_eqb_spec k k'); [subst k'|discriminate].
    assert (m = n) as -> by (apply D; [now left|exact Q1]). destruct (H n) as [h|] eqn:Hn; [reflexivity|].
    clear - Nx D Hn. induction r as [|m r IH]; [exact Nx|]. unfold sub_table. cbn [flat_map]. fold (sub_table of H r). rewrite <- app_assoc, assoc_app.
    destruct (existsb (str_eqb k) (of (s_ m))) eqn:Q.
    + apply existsb_exists in Q as (k' & Q1 & Q2). destruct (str_eqb_spec k k'); [subst k'|discriminate].
      assert (m = n) as -> by (apply D; [right; now left|exact Q1]). rewrite Hn. cbn [assoc]. apply IH. intros x [->|I]; [reflexivity|]. intro. apply D; [right; now right|assumption].
    + replace (assoc k match H m with Some h => _ | None => [] end) with (@None (cmd T)).
      * apply IH. intros x [->|I]; intro; [reflexivity|apply D; [right; now right|assumption]].
      * symmetry. destruct (H m); [rewrite assoc_map, Q|]; reflexivity.
  - apply IH.
    + destruct I as [->|I]; [|exact I]. exfalso. apply Bool.not_true_iff_false in Q. apply Q, existsb_exists. exists k. split; [exact K|apply str_eqb_refl].
    + intros x J. apply D. now right.
Qed.
Definition setting_table {S} (of : str -> list str) (cs : list (string * cmd S)) : list (str * cmd S) :=
  flat_map (fun nc => map (fun k => (k, snd nc)) (of (s_ (fst nc)))) cs.
(** The names of the options do not clash. *)
Definition distinct (of : str -> list str) (ns : list string) (extra : list str) : Prop :=
  (forall m n k, In m ns -> In n ns -> In k (of (s_ m)) -> In k (of (s_ n)) -> m = n) /\
  (forall n k, In n ns -> In k (of (s_ n)) -> ~ In k extra).
Lemma distinct_by of ns extra :
  forallb (fun m => forallb (fun n => String.eqb m n || negb (existsb (fun k => existsb (str_eqb k) (of (s_ n))) (of (s_ m)))) ns &&
                    negb (existsb (fun k => existsb (str_eqb k) extra) (of (s_ m)))) ns = true -> distinct of ns extra.
Proof.
  intro H. rewrite forallb_forall in H.
  assert (Ex : forall k l, In k l -> existsb (str_eqb k) l = true) by (intros k l I; apply existsb_exists; exists k; split; [exact I|apply str_eqb_refl]).
  split.
  - intros m n k Im In_ Km Kn. specialize (H m Im). apply andb_prop in H as [H _]. rewrite forallb_forall in H. specialize (H n In_).
    apply Bool.orb_prop in H as [H|H]; [now apply String.eqb_eq|]. apply Bool.negb_true_iff, Bool.not_true_iff_false in H. exfalso. apply H, existsb_exists. exists k. auto.
  - intros n k In_ Kn X. specialize (H n In_). apply andb_prop in H as [_ H]. apply Bool.negb_true_iff, Bool.not_true_iff_false in H. apply H, existsb_exists. exists k. auto.
Qed.
Lemma field_options {S T} (pr : S -> T) of (cs : list (string * cmd S)) ext (H : string -> option (cmd T)) esub e s0 s :
  distinct of (map fst cs) (map fst ext) -> incl (map fst esub) (map fst ext) ->
  Forall (fun nc => acts pr (H (fst nc)) (snd nc)) cs -> Forall (fun kc => acts pr (assoc (fst kc) esub) (snd kc)) ext ->
  options (setting_table of cs ++ ext) e s0 = Ret s ->
  options (sub_table of H (map fst cs) ++ esub) e (pr s0) = Ret (pr s).
Proof.
  intros [D1 D2] I F1 F2. apply options_proj.
  - unfold projects. apply Forall_app. split; apply Forall_forall.
    + intros [k c] J. apply in_flat_map in J as ([n c'] & J1 & J2). apply in_map_iff in J2 as (k' & J2 & J3). cbn [fst snd] in *. injection J2 as -> ->.
      assert (In n (map fst cs)) as In_ by (apply in_map_iff; exists (n, c); auto).
      intros a t t' Q. cbn [fst snd] in *. rewrite (sub_lookup of H _ esub n k); auto.
      * rewrite Forall_forall in F1. exact (F1 _ J1 a t t' Q).
      * intros m M K. now apply (D1 m n k).
      * intro X. exact (D2 n k In_ J3 (I _ X)).
    + intros [k c] J a t t' Q. cbn [fst snd] in *. rewrite assoc_app.
      replace (assoc k (sub_table of H (map fst cs))) with (@None (cmd T)).
      * rewrite Forall_forall in F2. exact (F2 _ J a t t' Q).
      * symmetry. apply assoc_none_keys. intro X. apply in_map_iff in X as ([k' h] & X1 & X2). cbn in X1. subst k'.
        apply in_flat_map in X2 as (n & X2 & X3). destruct (H n) as [h'|]; [|destruct X3]. apply in_map_iff in X3 as (k' & X3 & X4). injection X3 as -> _.
        apply (D2 n k X2 X4). apply in_map_iff. exists (k, c). auto.
  - rewrite !map_app. intros k K. apply in_app_or in K as [K|K]; apply in_or_app; [left|right; auto].
    apply in_map_iff in K as ([k' h] & X1 & X2). cbn in X1. subst k'. apply in_flat_map in X2 as (n & X2 & X3).
    destruct (H n) as [h'|]; [|destruct X3]. apply in_map_iff in X3 as (k' & X3 & X4). injection X3 as -> _.
    apply in_map_iff in X2 as ([n' c] & X2 & X5). cbn in X2. subst n'. apply in_map_iff. exists (k, c). split; [reflexivity|].
    apply in_flat_map. exists (n, c). split; [exact X5|]. apply in_map_iff. exists k. auto.
Qed.

Ltac act := let a := fresh "a" in let s := fresh "s" in let s' := fresh "s'" in let H := fresh "H" in
  intros a s s' H; cbn [fst snd] in H;
  cbv [upd updf call_each c_scale c_limit c_limit_min c_limit_max c_lplace c_tickplace c_lformat c_attach c_loff c_lpad c_lrotate c_lfont c_lsize c_lcolor c_tickoff c_ticklen c_title c_tfont c_tsize c_tcolor c_toff c_tpad c_trotate c_bwidth c_bcolor c_bstyle rd_place rd_format border_style_read] in H;
  split_binds; subst;
  repeat match goal with A : ?x = Ret ?p, B : ?x = Ret ?q |- _ =>
           let X := fresh in assert (X : q = p) by congruence; clear B; try (subst q || (injection X; intros; subst)) end;
  first [reflexivity | assumption | cbn; assumption
        | repeat match goal with A : _ = Ret _ |- _ => rewrite A; cbn [bind]; clear A end; reflexivity
        | match goal with A : _ = Ret _ |- _ => change (_ = Ret _) in A; cbn; rewrite A; reflexivity end
        | cbn [a_border set_a_border]; match goal with |- context [is_word ?x ?y] => destruct (is_word x y); reflexivity end].
Ltac acts_all := cbn [fst snd]; repeat (apply Forall_cons; [cbn; act|]); apply Forall_nil.

Section Settings.
  Variables (W : world) (E : env).
  Definition extra_at (g : axis_align) : list (str * cmd axis) :=
    [(s_ "font", call_each [c_lfont W; c_tfont W]); (s_ "font-size", call_each [c_tsize W E; c_lsize W E]);
     (s_ "position", fun e a => Ret (set_a_enable (existsb (fun x => is_word [x] (side_name g)) e) a))].
  Lemma side_table_is g : side_table W E g = setting_table (names_at g) (axis_settings W E) ++ extra_at g.
  Proof. reflexivity. Qed.
  Lemma distinct_at g : distinct (names_at g) (map fst (axis_settings W E)) (map fst (extra_at g)).
  Proof. apply distinct_by. destruct g; vm_compute; reflexivity. Qed.
  Definition only {T} (n : string) (h : cmd T) (m : string) : option (cmd T) := if String.eqb m n then Some h else None.

  Lemma field_changed {T} (pr : axis -> T) of cs ext n (read : cmd T) more e a0 a :
    distinct of (map fst cs) (map fst ext) -> incl more (map fst ext) -> NoDup (map fst cs) -> In n (map fst cs) ->
    Forall (fun nc => acts pr (only n read (fst nc)) (snd nc)) cs ->
    Forall (fun kc => acts pr (if existsb (str_eqb (fst kc)) more then Some read else None) (snd kc)) ext ->
    options (setting_table of cs ++ ext) e a0 = Ret a ->
    changed_by (of (s_ n) ++ more) read e (pr a0) (pr a).
  Proof.
    intros D I N J F1 F2 O. unfold changed_by.
    apply (field_options pr of cs ext (only n read) (map (fun k => (k, read)) more)) in O; try assumption.
    - replace (sub_table of (only n read) (map fst cs)) with (map (fun k => (k, read)) (of (s_ n))) in O.
      + rewrite <- map_app in O. exact O.
      + clear - N J. induction (map fst cs) as [|m r IH]; [destruct J|]. unfold sub_table. cbn [flat_map]. fold (@sub_table T of (only n read) r).
        inversion N as [|? ? N1 N2]; subst. unfold only at 1. destruct (String.eqb_spec m n) as [->|Q].
        * replace (sub_table of (only n read) r) with (@nil (str * cmd T)); [now rewrite app_nil_r|].
          clear - N1. symmetry. induction r as [|m r IH]; [reflexivity|]. unfold sub_table. cbn [flat_map]. fold (@sub_table T of (only n read) r).
          unfold only at 1. destruct (String.eqb_spec m n) as [->|Q]; [exfalso; apply N1; now left|]. apply IH. intro X. apply N1. now right.
        * destruct J as [J|J]; [congruence|]. now apply IH.
    - intros k K. apply I. clear - K. induction more as [|x r IH]; cbn in *; intuition.
    - eapply Forall_impl; [|exact F2]. intros [k c] Q. cbn [fst snd] in *. rewrite assoc_map. exact Q.
  Qed.
  Lemma field_set {T} (pr : axis -> T) of cs ext n (read : list expr -> outcome T) more e a0 a :
    distinct of (map fst cs) (map fst ext) -> incl more (map fst ext) -> NoDup (map fst cs) -> In n (map fst cs) ->
    Forall (fun nc => acts pr (only n (fun x _ => read x) (fst nc)) (snd nc)) cs ->
    Forall (fun kc => acts pr (if existsb (str_eqb (fst kc)) more then Some (fun x _ => read x) else None) (snd kc)) ext ->
    options (setting_table of cs ++ ext) e a0 = Ret a ->
    set_by (of (s_ n) ++ more) read e (pr a0) (pr a).
  Proof. intros D I N J F1 F2 O. apply options_set_by. exact (field_changed pr of cs ext n (fun x _ => read x) more e a0 a D I N J F1 F2 O). Qed.
  Lemma nodup_by (l : list string) : (forall i j, (i < j < length l)%nat -> nth i l EmptyString <> nth j l EmptyString) -> NoDup l.
  Proof.
    intro H. apply NoDup_nth with EmptyString. intros i j I J Q. destruct (Nat.lt_trichotomy i j) as [L|[L|L]]; [|exact L|]; exfalso; [apply (H i j)|apply (H j i)]; auto.
  Qed.

  Ltac fld_set of pr n more D Nd O :=
    match type of O with options _ ?e ?a0 = Ret ?a => match goal with |- set_by _ ?r _ _ _ => change (set_by (of (s_ n) ++ more) r e (pr a0) (pr a)) end end;
    apply (field_set pr of _ _ n%string _ more _ _ _ D); [apply incl_by; vm_compute; reflexivity | exact Nd | cbn; tauto | acts_all | acts_all | exact O].
  Ltac fld_changed of pr n more D Nd O :=
    match type of O with options _ ?e ?a0 = Ret ?a => match goal with |- changed_by _ ?r _ _ _ => change (changed_by (of (s_ n) ++ more) r e (pr a0) (pr a)) end end;
    apply (field_changed pr of _ _ n%string _ more _ _ _ D); [apply incl_by; vm_compute; reflexivity | exact Nd | cbn; tauto | acts_all | acts_all | exact O].
  Lemma names_nodup : NoDup (map fst (axis_settings W E)).
  Proof.
    cbn [map fst axis_settings]. repeat (constructor; [cbn [In]; intuition discriminate|]). constructor.
  Qed.
  Ltac border_width of D Nd O :=
    match type of O with options (setting_table _ ?cs ++ ?ext) _ _ = _ =>
      apply (field_options (fun a => s_width (a_border a)) of cs ext
        (fun m => if String.eqb m "border-width" then Some (fun x _ => rd_size W E x)
                  else if String.eqb m "border-style" then Some (fun x w => Ret (if is_word x "none" then Fin 0 else w)) else None) [] _ _ _ D) in O;
      [rewrite app_nil_r in O; exact O | intros ? [] | acts_all | acts_all] end.
  Ltac settings of D Nd O :=
    split; [fld_set of a_title "title"%string (@nil str) D Nd O|];
    split; [fld_changed of a_tcolor "title-color"%string (@nil str) D Nd O|];
    split; [fld_changed of a_lcolor "label-color"%string (@nil str) D Nd O|];
    split; [fld_changed of a_tfont "title-font"%string [s_ "font"] D Nd O|];
    split; [fld_changed of a_lfont "label-font"%string [s_ "font"] D Nd O|];
    split; [fld_set of a_tsize "title-font-size"%string [s_ "font-size"] D Nd O|];
    split; [fld_set of a_lsize "label-font-size"%string [s_ "font-size"] D Nd O|];
    split; [fld_set of a_toff "title-offset"%string (@nil str) D Nd O|];
    split; [fld_set of a_loff "label-offset"%string (@nil str) D Nd O|];
    split; [fld_set of a_tickoff "tick-offset"%string (@nil str) D Nd O|];
    split; [fld_set of a_trotate "title-rotate"%string (@nil str) D Nd O|];
    split; [fld_set of a_lrotate "label-rotate"%string (@nil str) D Nd O|];
    split; [fld_set of a_tpad "title-padding"%string (@nil str) D Nd O|];
    split; [fld_set of a_lpad "label-padding"%string (@nil str) D Nd O|];
    split; [fld_set of a_ticklen "tick-length"%string (@nil str) D Nd O|];
    split; [fld_set of a_attach "label-attach"%string (@nil str) D Nd O|];
    split; [fld_set of a_lplace "label-placement"%string (@nil str) D Nd O|];
    split; [fld_set of a_tickplace "tick-placement"%string (@nil str) D Nd O|];
    split; [fld_set of a_lformat "label-format"%string (@nil str) D Nd O|];
    split; [fld_changed of (fun a => s_color (a_border a)) "border-color"%string (@nil str) D Nd O|];
    border_width of D Nd O.
  (** The state before any option. *)
  Definition fresh_axis (g : axis_align) (loff toff tickoff trot : R) (att : axis_attach) (s : scale) : axis :=
    mk_axis g true s [] (e_text_color E) (Fin toff) (Fin 0) (e_font E) (page_font_size W E) (Fin trot)
      (Fin tickoff) (Fin 0) None None None att (Fin loff) (Fin 0) (Fin 0) (e_font E) (page_font_size W E) (e_text_color E)
      (stroke_with (pt W E 1) (e_fg E)).
  Lemma settings_at g e s a loff toff tickoff trot att : options (side_table W E g) e (fresh_axis g loff toff tickoff trot att s) = Ret a ->
    axis_set W E (names_at g) g e a loff toff tickoff trot att.
  Proof.
    intros O. rewrite side_table_is in O. pose proof (distinct_at g) as D. pose proof names_nodup as Nd.
    split; [rewrite <- side_table_is in O; exact (side_align_kept W E g e _ _ O (fun k K => match K with end))|].
    settings (names_at g) D Nd O.
  Qed.
  Definition axis_entries : list (string * cmd axis) :=
    [("scale"%string, c_scale W); ("limit"%string, c_limit W); ("limit-min"%string, c_limit_min W); ("limit-max"%string, c_limit_max W);
     ("label-font"%string, c_lfont W); ("label-placement"%string, c_lplace W); ("label-format"%string, c_lformat W);
     ("label-attach"%string, c_attach); ("label-offset"%string, c_loff W); ("label-padding"%string, c_lpad W);
     ("label-rotate"%string, c_lrotate W); ("label-font-size"%string, c_lsize W E); ("label-color"%string, c_lcolor W E);
     ("tick-placement"%string, c_tickplace W); ("tick-offset"%string, c_tickoff W); ("tick-length"%string, c_ticklen W);
     ("title"%string, c_title); ("title-font"%string, c_tfont W); ("title-font-size"%string, c_tsize W E);
     ("title-color"%string, c_tcolor W E); ("title-offset"%string, c_toff W); ("title-padding"%string, c_tpad W);
     ("title-rotate"%string, c_trotate W);
     ("border-width"%string, c_bwidth W E); ("border-color"%string, c_bcolor W E); ("border-style"%string, c_bstyle)].
  Definition axis_extra : list (str * cmd axis) :=
    [(s_ "font", call_each [c_lfont W; c_tfont W]); (s_ "font-size", call_each [c_lsize W E; c_tsize W E])].
  Lemma axis_table_is : axis_table W E = setting_table name_only axis_entries ++ axis_extra.
  Proof. reflexivity. Qed.
  Lemma axis_names_nodup : NoDup (map fst axis_entries).
  Proof.
    cbn [map fst axis_entries]. repeat (constructor; [cbn [In]; intuition discriminate|]). constructor.
  Qed.
  Lemma axis_settings_at g e s a loff toff tickoff trot att : options (axis_table W E) e (fresh_axis g loff toff tickoff trot att s) = Ret a ->
    axis_set W E name_only g e a loff toff tickoff trot att.
  Proof.
    intros O. rewrite axis_table_is in O.
    assert (D : distinct name_only (map fst axis_entries) (map fst axis_extra)) by (apply distinct_by; vm_compute; reflexivity).
    pose proof axis_names_nodup as Nd.
    split.
    { rewrite <- axis_table_is in O. change g with (a_align (fresh_axis g loff toff tickoff trot att s)). revert O. apply (options_kept a_align []).
      - rewrite axis_table_is. unfold setting_table, axis_entries, axis_extra. cbn [flat_map map name_only fst snd app].
        repeat (apply Forall_cons; [right; act|]); apply Forall_nil.
      - intros k []. }
    settings name_only D Nd O.
  Qed.
End Settings.
