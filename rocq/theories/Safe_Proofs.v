(** Readers and loaders end in a defined way. *)
From Coq Require Import Reals Lra.
From Verif Require Import Base Num Str_Model Sexpr_Model Dispatch_Model Csv_Model Csv_Spec Csv_Proofs Data_Model Data_Spec Data_Proofs Geojson_Model Scale_Model
  Units_Model Color_Model Color_Proofs Color_Props Geo_Model Svg_Model Cmd_Model Cmd_Spec Cmd_Proofs Style_Model Plot_Model Safe_Spec.
Local Open Scope R_scope.

Lemma def_ret {A} (a : A) : defined (Ret a). Proof. split; discriminate. Qed.
Lemma def_err {A} : defined (@Err A). Proof. split; discriminate. Qed.
Lemma def_throw {A} : defined (@Throw A). Proof. split; discriminate. Qed.
Lemma def_bind {A B} (m : outcome A) (k : A -> outcome B) : defined m -> (forall a, m = Ret a -> defined (k a)) -> defined (bind m k).
Proof. intros [U D] H. destruct m; cbn [bind]; [now apply H|apply def_err|apply def_throw|contradiction|contradiction]. Qed.
Lemma def_forM {A B} (f : A -> outcome B) l : (forall a, In a l -> defined (f a)) -> defined (forM f l).
Proof.
  induction l as [|a l IH]; intro H; cbn [forM]; [apply def_ret|]. apply def_bind; [apply H; now left|]. intros b _.
  apply def_bind; [apply IH; intros; apply H; now right|]. intros; apply def_ret.
Qed.
Lemma def_draw_each {A B} (f : A -> outcome (list B)) l : (forall a, In a l -> defined (f a)) -> defined (draw_each f l).
Proof.
  induction l as [|a l IH]; intro H; cbn [draw_each]; [apply def_ret|]. apply def_bind; [apply H; now left|]. intros b _.
  apply def_bind; [apply IH; intros; apply H; now right|]. intros; apply def_ret.
Qed.
Lemma def_at {A} (l : list A) i : (i < length l)%nat -> defined (at_ l i).
Proof. intro H. unfold at_. destruct (nth_error l i) eqn:X; [apply def_ret|]. apply nth_error_None in X. lia. Qed.
Lemma def_ended {A} (r : A * outcome unit) : defined (snd r) -> defined (ended r).
Proof. destruct r as [a o]. cbn [snd ended]. intro H. apply def_bind; [exact H|]. intros; apply def_ret. Qed.

Ltac dfn :=
  repeat first
    [ apply def_ret | apply def_err | apply def_throw | assumption
    | match goal with
      | |- defined (bind _ _) => apply def_bind; [|intros ? ?]
      | |- defined (let '(_, _) := ?x in _) => destruct x
      | |- defined (match ?x with _ => _ end) => destruct x eqn:?
      end ].

(** A table all of whose entries are defined on the options of a list and keep an invariant. *)
Lemma walk_safe {S} (Inv : S -> Prop) (tbl : list (str * cmd S)) c l : forall u t s,
  (forall x k a f s, In x l -> option_of x = Some (k, a) -> assoc k tbl = Some f -> Inv s ->
     defined (f a s) /\ forall s', f a s = Ret s' -> Inv s') ->
  Inv s -> defined (walkx tbl c l u t s) /\ forall s' r, walkx tbl c l u t s = Ret (s', r) -> Inv s'.
Proof.
  induction l as [|x l IH]; intros u t s H I; cbn [walkx].
  { split; [apply def_ret|]. intros s' r Q. injection Q as <- _. exact I. }
  destruct x as [args|v|v]; [|split; [apply def_err|discriminate]..].
  destruct (value_of args) as [k|] eqn:V; [|split; [apply def_err|discriminate]].
  assert (O : option_of (EList args) = Some (k, tl args)).
  { destruct args as [|[?|w|w] args]; try discriminate; cbn in V; injection V as <-; reflexivity. }
  destruct (assoc k tbl) as [f|] eqn:A.
  - destruct (H (EList args) k (tl args) f s (or_introl eq_refl) O A I) as [D K].
    assert (H' : forall x k a f s, In x l -> option_of x = Some (k, a) -> assoc k tbl = Some f -> Inv s ->
       defined (f a s) /\ forall s', f a s = Ret s' -> Inv s') by (intros; eapply H; eauto; now right).
    split.
    + apply def_bind; [exact D|]. intros s' Q. apply IH; auto.
    + intros s' r Q. apply bind_ret in Q. destruct Q as (s1 & Q1 & Q2). eapply (IH u t s1); eauto.
  - assert (H' : forall x k a f s, In x l -> option_of x = Some (k, a) -> assoc k tbl = Some f -> Inv s ->
       defined (f a s) /\ forall s', f a s = Ret s' -> Inv s') by (intros; eapply H; eauto; now right).
    destruct c; [|split; [apply def_err|discriminate]]. now apply IH.
Qed.
Lemma run_safe {S} (Inv : S -> Prop) (tbl : list (str * cmd S)) l s :
  (forall x k a f s, In x l -> option_of x = Some (k, a) -> assoc k tbl = Some f -> Inv s ->
     defined (f a s) /\ forall s', f a s = Ret s' -> Inv s') ->
  Inv s -> defined (run tbl l s) /\ forall s', run tbl l s = Ret s' -> Inv s'.
Proof.
  intros H I. destruct (walk_safe Inv tbl false l [] [] s H I) as [D K]. unfold run. split.
  - apply def_bind; [exact D|]. intros [s' r] _. apply def_ret.
  - intros s' Q. apply bind_ret in Q. destruct Q as ([s1 r] & Q1 & Q2). injection Q2 as <-. eauto.
Qed.
Lemma collect_safe {S} (Inv : S -> Prop) (tbl : list (str * cmd S)) l s :
  (forall x k a f s, In x l -> option_of x = Some (k, a) -> assoc k tbl = Some f -> Inv s ->
     defined (f a s) /\ forall s', f a s = Ret s' -> Inv s') ->
  Inv s -> defined (run_collect tbl l s) /\ forall s' r, run_collect tbl l s = Ret (s', r) -> Inv s'.
Proof. apply walk_safe. Qed.

(** Tables whose entries are defined everywhere. *)
Definition safe_cmd {S} (f : cmd S) : Prop := forall e s, defined (f e s).
Definition safe_table {S} (tbl : list (str * cmd S)) : Prop := Forall (fun q => safe_cmd (snd q)) tbl.
Lemma assoc_snd {T} (P : T -> Prop) k (l : list (str * T)) f : Forall (fun q => P (snd q)) l -> assoc k l = Some f -> P f.
Proof.
  induction l as [|[k' v] l IH]; cbn [assoc]; [discriminate|]. intro F. inversion F; subst. destruct (str_eqb k k'); [|auto].
  intro Q. injection Q as <-. assumption.
Qed.
Lemma run_defined {S} (tbl : list (str * cmd S)) l s : safe_table tbl -> defined (run tbl l s).
Proof.
  intro F. apply (run_safe (fun _ => True)); [|exact I]. intros x k a f s0 _ _ A _. split; [|auto].
  exact (assoc_snd safe_cmd k tbl f F A a s0).
Qed.
Lemma collect_defined {S} (tbl : list (str * cmd S)) l s : safe_table tbl -> defined (run_collect tbl l s).
Proof.
  intro F. apply (collect_safe (fun _ => True)); [|exact I]. intros x k a f s0 _ _ A _. split; [|auto].
  exact (assoc_snd safe_cmd k tbl f F A a s0).
Qed.
Lemma safe_upd {S T} (rd : list expr -> outcome T) (put : T -> S -> S) : (forall e, defined (rd e)) -> safe_cmd (upd rd put).
Proof. intros H e s. unfold upd. apply def_bind; [apply H|]. intros; apply def_ret. Qed.
Lemma safe_updf {S T} (get : S -> T) (rd : list expr -> T -> outcome T) (put : T -> S -> S) :
  (forall e v, defined (rd e v)) -> safe_cmd (updf get rd put).
Proof. intros H e s. unfold updf. apply def_bind; [apply H|]. intros; apply def_ret. Qed.
Lemma safe_each {S} (fs : list (cmd S)) : Forall safe_cmd fs -> safe_cmd (call_each fs).
Proof.
  induction 1 as [|f fs F FS IH]; intros e s; cbn [call_each]; [apply def_ret|]. apply def_bind; [apply F|]. intros; apply IH.
Qed.
Lemma safe_app {S} (a b : list (str * cmd S)) : safe_table a -> safe_table b -> safe_table (a ++ b).
Proof. intros; apply Forall_app; now split. Qed.
Lemma safe_nil {S} : safe_table (@nil (str * cmd S)). Proof. constructor. Qed.
Lemma safe_cons {S} k (f : cmd S) l : safe_cmd f -> safe_table l -> safe_table ((k, f) :: l).
Proof. intros; constructor; assumption. Qed.

Ltac tbl :=
  repeat first [ apply safe_app | apply safe_nil | apply safe_cons ].

Section Readers.
  Variable W : world.
  Variable E : env.
  Hypothesis T : tame W.

  Lemma d_float e : defined (rd_float W e).
  Proof. unfold rd_float, expr_to_float64. dfn. Qed.
  Lemma d_float64 e : defined (expr_to_float64 (w_stod W) e).
  Proof. unfold expr_to_float64. dfn. Qed.
  Lemma d_number conv e : defined (to_number (w_stod W) conv e).
  Proof. unfold to_number, expr_to_number. dfn. Qed.
  Lemma d_size e : defined (rd_size W E e).
  Proof. unfold rd_size, expr_to_size. apply d_number. Qed.
  Lemma d_font_size e : defined (rd_font_size W E e).
  Proof. unfold rd_font_size, expr_to_font_size. apply d_number. Qed.
  Lemma d_parse_measure s : defined (parse_measure (w_d W) (w_stod W) s).
  Proof. unfold parse_measure. dfn. Qed.
  Lemma d_measure_read e : defined (measure_read (w_d W) (w_stod W) e).
  Proof. unfold measure_read. destruct (value_of e); [apply d_parse_measure|apply def_err]. Qed.
  Lemma d_readn e : defined (measure_readn (w_d W) (w_stod W) (e_layer E) e).
  Proof. unfold measure_readn. apply def_bind; [apply d_measure_read|]. intros; apply def_ret. Qed.
  Lemma d_measuren e : defined (rd_measuren W E e).
  Proof. unfold rd_measuren. apply def_bind; [apply d_readn|]. intros; apply def_ret. Qed.
  Lemma d_measure e : defined (rd_measure W e).
  Proof. unfold rd_measure. apply def_bind; [apply d_measure_read|]. intros; apply def_ret. Qed.
  Lemma d_string e : defined (expr_to_string e).
  Proof. unfold expr_to_string. dfn. Qed.
  Lemma d_switch e : defined (expr_to_switch e).
  Proof. unfold expr_to_switch. dfn. Qed.
  Lemma d_enum {X} (t : list (str * X)) e : defined (expr_to_enum t e).
  Proof. unfold expr_to_enum. dfn. Qed.
  Lemma d_copy e : defined (expr_to_copy e).
  Proof. apply def_ret. Qed.
  Lemma d_sto lo hi b w : defined (sto lo hi b w).
  Proof. unfold sto. dfn. Qed.
  Lemma d_parse v c : defined (parse (w_f W) v c).
  Proof. destruct (C39_total (w_f W) v c) as [(r & ->)| ->]; [apply def_ret|apply def_throw]. Qed.
  Lemma d_color_ pal e c : defined (expr_to_color (w_f W) (w_stod W) pal e c).
  Proof.
    split; [exact (proj1 (C41_in_bounds (w_f W) (w_stod W) pal e c []))|].
    assert (P : forall v, (let* (ok, c1) := if begins_with v (s_ "#") then parse (w_f W) v c else Ret (false, c) in
        if ok then Ret c1 else if is_digit_string v then
          match pal with [] => Ret c1 | _ => let* i := stol 10 v in palette_at pal (((i - 1) mod 2 ^ 64) mod Z.of_nat (length pal)) end
        else Err) <> Diverge).
    { intro v. destruct (begins_with v (s_ "#")); [destruct (C39_total (w_f W) v c) as [([ok c1] & ->)| ->]; cbn [bind]; [|discriminate]|cbn [bind]].
      - destruct ok; [discriminate|]. destruct (is_digit_string v); [|discriminate]. destruct pal as [|c0 p]; [discriminate|].
        unfold stol. destruct (d_sto (- 2 ^ 63) (2 ^ 63 - 1) 10 v) as [_ D]. destruct (sto _ _ _ v); cbn [bind]; try discriminate; [|contradiction].
        unfold palette_at. destruct (nth_error _ _); discriminate.
      - destruct (is_digit_string v); [|discriminate]. destruct pal as [|c0 p]; [discriminate|].
        unfold stol. destruct (d_sto (- 2 ^ 63) (2 ^ 63 - 1) 10 v) as [_ D]. destruct (sto _ _ _ v); cbn [bind]; try discriminate; [|contradiction].
        unfold palette_at. destruct (nth_error _ _); discriminate. }
    destruct e as [|[args|w|w] r]; [discriminate| |apply P|apply P].
    cbn [expr_to_color]. destruct args as [|h [|a1 [|a2 [|a3 [|a4 [|a5 args]]]]]]; try discriminate;
    (destruct (head_is _ _); [|discriminate]).
    - assert (X : defined (let* x := expr_to_float64 (w_stod W) [a1] in
              let* y := expr_to_float64 (w_stod W) [a2] in
              let* z := expr_to_float64 (w_stod W) [a3] in Ret (from_rgb x y z))) by (unfold expr_to_float64; dfn). apply X.
    - assert (X : defined (let* x := expr_to_float64 (w_stod W) [a1] in
              let* y := expr_to_float64 (w_stod W) [a2] in
              let* z := expr_to_float64 (w_stod W) [a3] in
              let* a := expr_to_float64 (w_stod W) [a4] in Ret (from_rgba x y z a))) by (unfold expr_to_float64; dfn). apply X.
  Qed.
  Lemma d_color e c : defined (rd_color W E e c).
  Proof. apply d_color_. Qed.
  Lemma d_extract rows i : defined (snd (extract_rows i rows)).
  Proof.
    induction rows as [|r rows IH]; cbn [extract_rows]; [apply def_ret|]. destruct (_ <? _)%nat; [apply def_err|].
    destruct (nth_error r i); [|apply def_throw]. destruct (extract_rows i rows). exact IH.
  Qed.
  Lemma d_column data c : defined (snd (csv_extract_column data c)).
  Proof. unfold csv_extract_column. destruct data; [apply def_ret|]. destruct (index_of _ _); [apply d_extract|apply def_err]. Qed.
  Lemma d_csv s : defined (csv_parse (length s) s).
  Proof. destruct (csv_total s) as [(r & ->)| ->]; [apply def_ret|apply def_err]. Qed.
  Lemma d_load_csv e : defined (snd (load_csv (w_read_file W) e)).
  Proof.
    unfold load_csv. destruct e as [|p [|c [|x e]]]; try apply def_err. destruct (value_of [p; c]); [|apply def_err].
    destruct (value_of [c]); [|apply def_err]. destruct (w_read_file W _) as [t|]; [|apply def_err].
    destruct (csv_total t) as [(r & ->)| ->]; [apply d_column|apply def_err].
  Qed.
  Lemma d_tov {X} (rd : list expr -> outcome X) (D : forall e, defined (rd e)) e l : defined (snd (expr_tov rd e l)).
  Proof.
    unfold expr_tov. generalize (@nil X). induction e as [|y it IH]; intro acc; cbn [tov_loop]; [apply def_ret|].
    pose proof (D (y :: it)) as Dy. destruct (rd (y :: it)); cbn [snd]; [apply IH|apply def_err|apply def_throw|destruct Dy; contradiction|destruct Dy; contradiction].
  Qed.
  Lemma d_load_strings e l : defined (snd (data_load_strings (w_read_file W) e l)).
  Proof.
    unfold data_load_strings. destruct (list_headed e (s_ "csv")).
    - pose proof (d_load_csv l0). destruct (load_csv _ l0). exact H.
    - apply d_tov. apply d_string.
  Qed.
  Lemma d_strings e l : defined (rd_strings W e l).
  Proof. apply def_ended, d_load_strings. Qed.
  Lemma d_font e o : defined (rd_font W e o).
  Proof. unfold rd_font. destruct (value_of e); [apply T|apply def_err]. Qed.
  Lemma d_limits e s : defined (rd_limits W e s).
  Proof.
    unfold rd_limits, expr_to_float64_opt_pair. destruct e as [|a [|b [|x e]]]; try apply def_err.
    pose proof (d_float64 [a; b]) as [A1 A2]. destruct (expr_to_float64 _ [a; b]); cbn [ended bind]; try apply def_err.
    destruct (expr_to_float64 _ [b]); cbn [ended bind]; try apply def_err. apply def_ret.
  Qed.
  Lemma d_kind_ e : forall s, defined (snd (configure_kind (w_stod W) (w_read_file W) e s)).
  Proof.
    induction e as [|x e IH]; intro s; cbn [configure_kind]; [apply def_ret|].
    destruct (is_val _ _); [apply IH|]. destruct (_ || _)%bool; [apply IH|].
    destruct (match list_headed (x :: e) (s_ "log") with Some a => Some a | None => _ end) as [a|].
    - pose proof (d_float64 a) as [A1 A2]. destruct (expr_to_float64 _ a); try contradiction; [apply IH|apply def_err|apply def_throw].
    - destruct (_ || _)%bool; [apply IH|]. destruct (is_val _ _); [apply IH|].
      destruct (list_headed _ _) as [a|]; [|apply def_err].
      pose proof (d_load_strings a (s_categories (set_categorical s))) as D.
      destruct (data_load_strings _ _ _) as [c o]. cbn [snd] in D. destruct o; try (destruct D; contradiction); [apply IH|apply def_err|apply def_throw].
  Qed.
  Lemma d_kind e s : defined (rd_kind W e s).
  Proof. apply def_ended, d_kind_. Qed.
  Lemma d_simple_ e b : defined (snd (data_load_simple xr (w_read_file W) e b)).
  Proof.
    unfold data_load_simple. destruct (list_headed e (s_ "csv")) as [a|].
    - pose proof (d_load_csv a) as D. destruct (load_csv _ a). exact D.
    - destruct (list_headed e (s_ "list")); apply def_ret.
  Qed.
  Lemma d_simple e b : defined (load_simple W e b).
  Proof. apply def_ended, d_simple_. Qed.
  Lemma d_measures e l : defined (load_measures W e l).
  Proof.
    unfold load_measures. destruct e as [|[items|v|v] r]; try apply def_err.
    assert (I : defined (ended (let '(l, o) := expr_tov (measure_read (w_d W) (w_stod W)) (EList items :: r) [] in (map m_value l, o)))).
    { apply def_ended. pose proof (d_tov (measure_read (w_d W) (w_stod W)) d_measure_read (EList items :: r) []) as D. destruct (expr_tov _ _ _). exact D. }
    destruct items as [|[h|h|h] args]; try exact I. destruct (str_eqb h (s_ "csv")); [|exact I].
    apply def_bind; [apply def_ended, d_load_csv|]. intros vs _. apply def_bind; [|intros; apply def_ret].
    apply def_forM. intros v _. unfold stod_val. dfn.
  Qed.
  Lemma d_dash e s : defined (stroke_style_read_dash W E e s).
  Proof.
    unfold stroke_style_read_dash. apply run_defined. tbl; apply safe_upd; intro; [apply def_ended, d_tov|]; apply d_measuren.
  Qed.
  Lemma d_stroke e s : defined (stroke_style_read W E e s).
  Proof. unfold stroke_style_read. dfn; apply d_dash. Qed.
  Lemma d_solid e s : defined (fill_style_read_solid W E e s).
  Proof. unfold fill_style_read_solid. apply def_bind; [apply d_color|]. intros; apply def_ret. Qed.
  Lemma d_hatch_table rd : (forall e, defined (rd e)) -> safe_table (hatch_table W E rd).
  Proof. intro D. unfold hatch_table. tbl; [apply safe_updf; intros; apply d_color|apply safe_upd; intro..]; auto. apply d_float. Qed.
  Lemma d_hatch e s : defined (fill_style_read_hatch W E e s).
  Proof.
    unfold fill_style_read_hatch. apply def_bind; [apply run_defined, d_hatch_table, d_measuren|].
    intros [c [[[a o] st] w]] _. apply def_ret.
  Qed.
  Lemma d_fill e s : defined (fill_style_read W E e s).
  Proof. unfold fill_style_read. dfn; (apply d_hatch || apply d_solid). Qed.
  Lemma d_marker e : defined (marker_configure W e).
  Proof. unfold marker_configure. dfn. apply d_float. Qed.
  Lemma d_markers e l : defined (marker_configure_list W e l).
  Proof.
    assert (G : forall l acc, defined (markers_from W l acc)).
    { induction l0 as [|x l0 IH]; intro acc; cbn [markers_from]; [apply def_ret|]. apply def_bind; [apply d_marker|]. intros; apply IH. }
    unfold marker_configure_list. dfn; first [apply d_marker|apply G].
  Qed.
  Lemma d_size_map e : defined (rd_size_map W E e).
  Proof. unfold rd_size_map, measure_map_read. dfn; apply d_readn. Qed.
  Lemma d_map_linear mn mx v : defined (measure_map_linear (w_d W) (w_stod W) mn mx v).
  Proof. unfold measure_map_linear. dfn. Qed.
  Lemma d_stops pal a : defined (map_stops (w_f W) (w_stod W) pal a).
  Proof.
    unfold map_stops. destruct (Nat.odd _); [apply def_err|].
    assert (G : forall n a, (length a <= n)%nat -> defined (read_stops (w_f W) (w_stod W) pal a)).
    { induction n as [|n IH]; intros b L; [destruct b; [apply def_ret|cbn in L; lia]|].
      destruct b as [|x [|y b]]; [apply def_ret|apply def_ret|]. cbn [read_stops]. apply def_bind; [apply d_float64|]. intros.
      apply def_bind; [apply d_color_|]. intros. apply def_bind; [|intros; apply def_ret]. apply IH. cbn in L; lia. }
    exact (G _ a (Nat.le_refl _)).
  Qed.
  Lemma d_color_map_read pal e : defined (color_map_read (w_f W) (w_stod W) pal e).
  Proof. unfold color_map_read. dfn; apply d_stops. Qed.
  Lemma d_color_map e : defined (rd_color_map W E e).
  Proof. unfold rd_color_map. apply def_bind; [apply d_color_map_read|]. intros [k s] _. apply def_ret. Qed.
  Lemma d_polys e l : (forall h b r path, e = EList (h :: b) :: r -> value_of b = Some path -> defined (geojson_shapes W path)) -> defined (load_polys W e l).
  Proof.
    intro M. unfold load_polys. destruct e as [|[items|v|v] r]; try apply def_err. destruct items as [|[h|h|h] a]; try apply def_err.
    destruct (str_eqb _ _); [|apply def_err]. destruct (value_of a) as [p|] eqn:V; [|apply def_err].
    apply def_bind; [eapply M; [reflexivity|exact V]|]. intros; apply def_ret.
  Qed.

  (** Columns. *)
  Definition wf (b : databuf xr) : Prop := exists l, repr xr b l.
  Lemma wf_empty : wf empty.
  Proof. exists []. constructor. Qed.
  Lemma wf_texts vs b : wf b -> wf (fold_left (databuf_add_text xr) vs b).
  Proof. intros [l R]. exists (l ++ map AddText vs). rewrite fold_text. apply repr_adds. exact R. Qed.
  Lemma wf_num b v : wf b -> wf (databuf_add_num xr b v).
  Proof. intros [l R]. eexists. exact (repr_add xr b l (AddNum v) R). Qed.
  Lemma wf_inline e b : wf b -> wf (load_inline xr e b).
  Proof.
    unfold load_inline. intros H. revert b H. induction e as [|x e IH]; intros b H; cbn [fold_left]; [exact H|].
    apply IH. exact (wf_texts [raw_value x] b H).
  Qed.
  Lemma wf_simple_ e b : wf b -> wf (fst (data_load_simple xr (w_read_file W) e b)).
  Proof.
    intro H. unfold data_load_simple. destruct (list_headed e (s_ "csv")) as [a|].
    - destruct (load_csv _ a). now apply wf_texts.
    - destruct (list_headed e (s_ "list")); now apply wf_inline.
  Qed.
  Lemma ended_fst {A} (r : A * outcome unit) a : ended r = Ret a -> a = fst r.
  Proof. destruct r as [x o]. destruct o; cbn; congruence. Qed.
  Lemma wf_simple e b b' : wf b -> load_simple W e b = Ret b' -> wf b'.
  Proof. intros H Q. apply ended_fst in Q. subst b'. now apply wf_simple_. Qed.
  Lemma wf_pts pts : forall b, wf (fst b) -> wf (snd b) -> wf (fst (add_pts pts b)) /\ wf (snd (add_pts pts b)).
  Proof.
    unfold add_pts. induction pts as [|q pts IH]; intros b H1 H2; cbn [fold_left]; [now split|].
    apply IH; cbn [fst snd]; now apply wf_num.
  Qed.
  Lemma d_points s bx by_ : (d_ref s <> [] -> defined (geojson_shapes W (d_ref s))) -> defined (load_points W s bx by_).
  Proof.
    intro M. apply def_ended. unfold data_load_points2.
    assert (D : forall e b, defined (snd (if match e with EList _ :: _ => true | _ => false end then data_load_simple xr (w_read_file W) e b else (b, Ret tt)))).
    { intros e b. destruct (match e with EList _ :: _ => true | _ => false end); [apply d_simple_|apply def_ret]. }
    cbv zeta. lazymatch goal with |- defined (snd (match ?x with _ => _ end)) => pose proof (D (d_x s) bx : defined (snd x)) as D1; destruct x as [b1 o1] end. cbn [snd] in D1.
    destruct o1; try (destruct D1; contradiction); try apply def_err; try apply def_throw.
    lazymatch goal with |- defined (snd (match ?x with _ => _ end)) => pose proof (D (d_y s) by_ : defined (snd x)) as D2; destruct x as [b2 o2] end. cbn [snd] in D2.
    destruct o2; try (destruct D2; contradiction); try apply def_err; try apply def_throw.
    destruct (d_ref s) as [|c path]; [apply def_ret|]. destruct (str_eqb _ _); [|apply def_err].
    unfold load_geojson_points. assert (D3 : defined (geojson_shapes W (c :: path))) by (apply M; discriminate).
    destruct (geojson_shapes W (c :: path)); try (destruct D3; contradiction); [apply def_ret|apply def_err|apply def_throw].
  Qed.
  Lemma wf_points s bx by_ b : wf bx -> wf by_ -> load_points W s bx by_ = Ret b -> wf (fst b) /\ wf (snd b).
  Proof.
    intros H1 H2 Q. apply ended_fst in Q. subst b. unfold data_load_points2.
    assert (D : forall e b, wf b -> wf (fst (if match e with EList _ :: _ => true | _ => false end then data_load_simple xr (w_read_file W) e b else (b, Ret tt)))).
    { intros e b H. destruct (match e with EList _ :: _ => true | _ => false end); [now apply wf_simple_|exact H]. }
    cbv zeta. lazymatch goal with |- wf (fst (fst (match ?x with _ => _ end))) /\ _ => pose proof (D (d_x s) bx H1 : wf (fst x)) as D1; destruct x as [b1 o1] end. cbn [fst] in D1.
    destruct o1; try (now split).
    lazymatch goal with |- wf (fst (fst (match ?x with _ => _ end))) /\ _ => pose proof (D (d_y s) by_ H2 : wf (fst x)) as D2; destruct x as [b2 o2] end. cbn [fst] in D2.
    destruct o2; try (now split).
    destruct (d_ref s) as [|c path]; [now split|]. destruct (str_eqb _ _); [|now split].
    unfold load_geojson_points. destruct (geojson_shapes W (c :: path)); try (now split). cbn [fst]. now apply wf_pts.
  Qed.
  Lemma d_inline_ref e b : defined (load_inline_ref W e b).
  Proof. unfold load_inline_ref. destruct e as [|[?|?|?] ?]; try apply def_ret. apply d_simple. Qed.
  Lemma wf_inline_ref e b b' : wf b -> load_inline_ref W e b = Ret b' -> wf b'.
  Proof.
    unfold load_inline_ref. intros H Q. destruct e as [|[?|?|?] ?]; try (injection Q as <-; exact H). eapply wf_simple; eauto.
  Qed.
  Lemma d_add_column data key b : defined (add_column data key b).
  Proof.
    unfold add_column. pose proof (d_column data key) as D. destruct (csv_extract_column data key). apply def_bind; [exact D|].
    intros; apply def_ret.
  Qed.
  Lemma wf_add_column data key b b' : wf b -> add_column data key b = Ret b' -> wf b'.
  Proof.
    unfold add_column. intros H Q. destruct (csv_extract_column data key) as [vs o]. inv_bind Q. injection Q as <-. now apply wf_texts.
  Qed.
  Lemma d_lines s : (d_ref s <> [] -> defined (geojson_shapes W (d_ref s))) -> defined (load_lines W s).
  Proof.
    intro M. unfold load_lines. apply def_bind; [apply d_inline_ref|]. intros bx _. apply def_bind; [apply d_inline_ref|]. intros by_ _.
    destruct (d_ref s) as [|c path]; [apply def_ret|]. destruct (str_eqb _ _).
    - apply def_bind; [|intros; apply def_ret]. unfold load_lines_csv. destruct (w_read_file W _); [|apply def_err].
      apply def_bind; [apply d_csv|]. intros. apply def_bind; [apply d_add_column|]. intros.
      apply def_bind; [apply d_add_column|]. intros; apply def_ret.
    - destruct (str_eqb _ _); [|apply def_err]. apply def_bind; [apply M; discriminate|]. intros; apply def_ret.
  Qed.
  Lemma wf_lines_add ls : forall b ix, wf (fst b) -> wf (snd b) -> let '(b', _) := add_lines ls b ix in wf (fst b') /\ wf (snd b').
  Proof.
    induction ls as [|l ls IH]; intros b ix H1 H2; cbn [add_lines]; [now split|].
    destruct (wf_pts (map flat l) b H1 H2) as [P1 P2]. now apply IH.
  Qed.
  Lemma wf_shapes_add ev : forall b ix, wf (fst b) -> wf (snd b) -> let '(b', _) := add_line_shapes ev b ix in wf (fst b') /\ wf (snd b').
  Proof.
    induction ev as [|sh ev IH]; intros b ix H1 H2; cbn [add_line_shapes]; [now split|].
    destruct sh as [ps|ls|ps]; [now apply IH| |now apply IH].
    pose proof (wf_lines_add ls b ix H1 H2) as Q. destruct (add_lines ls b ix) as [b1 ix1]. apply IH; apply Q.
  Qed.
  Lemma wf_lines s b g : load_lines W s = Ret (b, g) -> wf (fst b) /\ wf (snd b).
  Proof.
    unfold load_lines. intro H. inv_bind H. inv_bind H.
    apply wf_inline_ref in A; [|apply wf_empty]. apply wf_inline_ref in A0; [|apply wf_empty].
    destruct (d_ref s) as [|c path]; [injection H as <- <-; now split|]. destruct (str_eqb _ _).
    - inv_bind H. injection H as <- <-. unfold load_lines_csv in A1. destruct (w_read_file W _); [|discriminate].
      inv_bind A1. inv_bind A1. inv_bind A1. injection A1 as <-. cbn [fst snd]. 
      split; match goal with H : add_column _ _ ?b = Ret ?v |- wf ?v => refine (wf_add_column _ _ _ _ _ H); assumption end.
    - destruct (str_eqb _ _); [|discriminate]. inv_bind H. injection H as H.
      pose proof (wf_shapes_add v1 (v, v0) [] A A0) as Q. rewrite H in Q. exact Q.
  Qed.
End Readers.
