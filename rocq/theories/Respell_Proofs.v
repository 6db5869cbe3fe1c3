(** How the values of a data column are written does not matter: the tables of the elements. *)
From Coq Require Import Reals.
From Verif Require Import Base Num Sexpr_Model Dispatch_Model Data_Model Scale_Model Svg_Model Cmd_Model Cmd_Spec Cmd_Proofs
  Style_Model Plot_Model Source_Spec Source_Props Respell_Spec.
Local Open Scope string_scope.
Local Open Scope list_scope.

Definition orel {S} (R : S -> S -> Prop) (o o' : outcome S) : Prop :=
  match o, o' with
  | Ret s, Ret s' => R s s' | Err, Err | Throw, Throw | UB, UB | Diverge, Diverge => True | _, _ => False
  end.
Lemma orel_bind {S T} (R : S -> S -> Prop) (Q : T -> T -> Prop) m m' k k' :
  orel R m m' -> (forall s s', R s s' -> orel Q (k s) (k' s')) -> orel Q (bind m k) (bind m' k').
Proof. intros M K. destruct m, m'; cbn in *; try contradiction; auto. Qed.
Lemma orel_same {S} (R : S -> S -> Prop) o : (forall s, R s s) -> orel R o o.
Proof. intro H. destruct o; cbn; auto. Qed.

Section Respell.
  Variable W : world.
  (** What the loaders see of two descriptions. *)
  Definition looks (a a' : list expr) : Prop :=
    exists l l', a = [EList l] /\ a' = [EList l'] /\
      forall b, data_load_simple xr (w_read_file W) a b = data_load_simple xr (w_read_file W) a' b.
  Lemma loads e vs b : plain_files W -> data_means (w_read_file W) e vs ->
    data_load_simple xr (w_read_file W) e b = (fold_left (databuf_add_text xr) vs b, Ret tt).
  Proof.
    intros PF D. unfold data_load_simple. destruct D as [e vs D|w a r vs HW D|a vs D].
    - pose proof D as (w & p & c & path & column & txt & r & -> & HW & _). rewrite (proj2 (headed_spec _ "csv" [p; c])) by eauto.
      apply (load_csv_means W [p; c] vs w r PF HW) in D. rewrite D. reflexivity.
    - destruct (list_headed (EList (w :: a) :: r) (s_ "csv")) as [x|] eqn:C.
      { apply headed_spec in C as (w' & r' & X & Y). injection X as <- <- <-. discriminate (word_two _ _ _ HW Y). }
      rewrite (proj2 (headed_spec _ "list" a)) by eauto. apply written_raw in D as (_ & ->). rewrite inline_adds. reflexivity.
    - destruct a as [|x a]; [inversion D; reflexivity|]. assert (T : exists t, is_text x t) by (inversion D; eauto).
      destruct T as (t & T). assert (N : forall n, list_headed (x :: a) n = None) by (intro n; destruct T as [->| ->]; reflexivity). rewrite !N.
      apply written_raw in D as (_ & ->). rewrite inline_adds. reflexivity.
  Qed.
  Lemma column_looks a a' : plain_files W -> same_column W a a' -> looks a a'.
  Proof. intros PF (l & l' & vs & -> & -> & D & D'). exists l, l'. split; [reflexivity|]. split; [reflexivity|]. intro b. now rewrite !(loads _ vs b PF). Qed.
  Lemma simple_looks a a' b : looks a a' -> load_simple W a b = load_simple W a' b.
  Proof. intros (l & l' & -> & -> & H). unfold load_simple. now rewrite H. Qed.

  (** Sources that give the same columns. *)
  Definition sees (a a' : list expr) : Prop := a = a' \/ looks a a'.
  Definition same_src (s s' : src) : Prop := d_ref s = d_ref s' /\ d_fmt s = d_fmt s' /\ sees (d_x s) (d_x s') /\ sees (d_y s) (d_y s').
  Lemma src_refl s : same_src s s.
  Proof. repeat split; now left. Qed.
  Lemma sees_inline a a' b : sees a a' -> load_inline_ref W a b = load_inline_ref W a' b.
  Proof. intros [->|L]; [reflexivity|]. pose proof (simple_looks a a' b L) as H. destruct L as (l & l' & -> & -> & _). exact H. Qed.
  Lemma sees_key a a' k : sees a a' -> key_of a k = key_of a' k.
  Proof. intros [->|(l & l' & -> & -> & _)]; reflexivity. Qed.
  Lemma sees_load a a' (b : databuf xr) : sees a a' ->
    (if match a with EList _ :: _ => true | _ => false end then data_load_simple xr (w_read_file W) a b else (b, Ret tt)) =
    (if match a' with EList _ :: _ => true | _ => false end then data_load_simple xr (w_read_file W) a' b else (b, Ret tt)).
  Proof. intros [->|(l & l' & -> & -> & H)]; [reflexivity|apply H]. Qed.
  Lemma points_sees s s' bx by_ : same_src s s' -> load_points W s bx by_ = load_points W s' bx by_.
  Proof.
    intros (A & B & X & Y). unfold load_points, data_load_points2. rewrite A, B. cbv zeta.
    rewrite (sees_load _ _ bx X). rewrite (sees_load _ _ by_ Y). reflexivity.
  Qed.
  Lemma lines_sees s s' : same_src s s' -> load_lines W s = load_lines W s'.
  Proof.
    intros (A & B & X & Y). unfold load_lines. rewrite (sees_inline _ _ _ X), (sees_inline _ _ _ Y), A, B.
    assert (C : forall bx by_, load_lines_csv W s bx by_ = load_lines_csv W s' bx by_).
    { intros bx by_. unfold load_lines_csv. rewrite A, (sees_key _ _ _ X), (sees_key _ _ _ Y). reflexivity. }
    destruct (load_inline_ref W (d_x s') empty) as [bx| | | |]; [|reflexivity..]. cbn [bind].
    destruct (load_inline_ref W (d_y s') empty) as [by_| | | |]; [|reflexivity..]. cbn [bind]. now rewrite C.
  Qed.

  (** Entries of the tables. *)
  Section Entries.
    Variable S : Type.
    Variable R : S -> S -> Prop.
    Definition evenly (f : cmd S) : Prop := forall a s s', R s s' -> orel R (f a s) (f a s').
    Definition entry_fair (kf : str * cmd S) : Prop := forall a a' s s', R s s' ->
      a = a' \/ (existsb (str_eqb (fst kf)) (map s_ data_words) = true /\ looks a a') -> orel R (snd kf a s) (snd kf a' s').
    Lemma fair_plain k f : existsb (str_eqb k) (map s_ data_words) = false -> evenly f -> entry_fair (k, f).
    Proof. intros N F a a' s s' Q [->|[D _]]; [now apply F|]. cbn [fst] in D. congruence. Qed.
    Lemma fair_data k f : evenly f -> (forall a a' s, looks a a' -> f a s = f a' s) -> entry_fair (k, f).
    Proof. intros F D a a' s s' Q [->|[_ L]]; [now apply F|]. cbn [snd]. rewrite (D a a' s L). now apply F. Qed.
    Lemma run_fair tbl : Forall entry_fair tbl -> forall e e' s s', plain_files W -> Forall2 (same_option W) e e' -> R s s' -> orel R (run tbl e s) (run tbl e' s').
    Proof.
      intros F e e' s s' PF H. revert s s'. rewrite Forall_forall in F. induction H as [|x x' e e' O H IH]; intros s s' Q; [exact Q|].
      rewrite !run_cons. assert (C : match option_of x, option_of x' with Some (k, a), Some (k', a') => k = k' /\ (a = a' \/ existsb (str_eqb k) (map s_ data_words) = true /\ looks a a') | None, None => True | _, _ => False end).
      { destruct O as [->|(k & a & a' & I & -> & -> & L)]; [destruct (option_of x') as [[k a]|]; auto|]. split; [reflexivity|right]. split; [|now apply column_looks].
        apply existsb_exists. exists (s_ k). split; [now apply in_map|]. apply str_eqb_refl. }
      destruct (option_of x) as [[k a]|], (option_of x') as [[k' a']|]; try contradiction; [|exact I]. destruct C as [<- C].
      destruct (assoc k tbl) as [f|] eqn:A; [|exact I]. pose proof (F _ (assoc_In k _ f A)) as Ff. apply orel_bind with (R := R); [|intros s1 s1'; apply IH].
      apply Ff; [exact Q|]. exact C.
    Qed.
  End Entries.
  Arguments evenly {S}. Arguments entry_fair {S}.

  (** States that agree but for the source. *)
  Section Sourced.
    Variable S : Type.
    Variable g : S -> src.
    Variable put : src -> S -> S.
    Definition alike (s s' : S) : Prop := exists v, s' = put v s /\ same_src (g s) v.
    Lemma evenly_updf {T} (get : S -> T) rd (st : T -> S -> S) :
      (forall v s, get (put v s) = get s) -> (forall v w s, st w (put v s) = put v (st w s)) -> (forall w s, g (st w s) = g s) -> evenly alike (updf get rd st).
    Proof.
      intros G P K a s s' (v & -> & Q). unfold updf. rewrite G. destruct (rd a (get s)) as [w| | | |]; cbn; auto. exists v. rewrite P, K. auto.
    Qed.
    Lemma evenly_upd {T} (rd : list expr -> outcome T) (st : T -> S -> S) :
      (forall v w s, st w (put v s) = put v (st w s)) -> (forall w s, g (st w s) = g s) -> evenly alike (upd rd st).
    Proof. intros P K a s s' (v & -> & Q). unfold upd. destruct (rd a) as [w| | | |]; cbn; auto. exists v. rewrite P, K. auto. Qed.
    Lemma evenly_each (R : S -> S -> Prop) fs : Forall (evenly R) fs -> evenly R (call_each fs).
    Proof.
      induction 1 as [|f fs F _ IH]; intros a s s' Q; [exact Q|]. cbn [call_each]. apply orel_bind with (R := R); [now apply F|]. intros t t' Q'. now apply IH.
    Qed.
    Lemma fair_src : (forall v s, g (put v s) = v) -> (forall v w s, put v (put w s) = put v s) ->
      Forall (entry_fair alike) (src_entries g put).
    Proof.
      intros G P. unfold src_entries.
      assert (U : forall T (rd : list expr -> outcome T) (st : T -> src -> src), (forall w s v, same_src s v -> same_src (st w s) (st w v)) ->
        evenly alike (upd rd (fun v s => put (st v (g s)) s))).
      { intros T rd st H a s s' (v & -> & Q). unfold upd. destruct (rd a) as [w| | | |]; cbn; auto. exists (st w v). rewrite !P, !G. split; [reflexivity|]. now apply H. }
      repeat (apply Forall_cons || apply Forall_nil).
      - apply fair_plain; [reflexivity|]. apply U. intros w s v (A & B & C & D). repeat split; assumption.
      - apply fair_plain; [reflexivity|]. apply U. intros w s v (A & B & C & D). repeat split; assumption.
      - intros a a' s s' (v & -> & A & B & C & D) L. exists (set_d_x (match a' with x :: _ => [x] | [] => [] end) v). unfold upd, expr_to_copy. cbn [bind].
        rewrite !P, !G. split; [reflexivity|]. repeat split; try assumption. cbn. destruct L as [->|[_ (l & l' & -> & -> & L)]]; [now left|]. right. exists l, l'. auto.
      - intros a a' s s' (v & -> & A & B & C & D) L. exists (set_d_y (match a' with x :: _ => [x] | [] => [] end) v). unfold upd, expr_to_copy. cbn [bind].
        rewrite !P, !G. split; [reflexivity|]. repeat split; try assumption. cbn. destruct L as [->|[_ (l & l' & -> & -> & L)]]; [now left|]. right. exists l, l'. auto.
    Qed.
  End Sourced.
  Arguments alike {S}.

  (** Columns that are loaded as they are read. *)
  Lemma load_looks {S} (get : S -> databuf xr) put a a' s : looks a a' -> updf get (load_simple W) put a s = updf get (load_simple W) put a' s.
  Proof. intro L. unfold updf. now rewrite (simple_looks a a' _ L). Qed.
  Lemma even_eq {S} (f : cmd S) : evenly eq f.
  Proof. intros a s s' ->. apply orel_same. reflexivity. Qed.

  Variable E : env.
  Ltac even := first [apply even_eq | apply evenly_each; repeat (apply Forall_cons; [even|]); apply Forall_nil
    | apply evenly_updf; [intros; reflexivity|intros; reflexivity|intros; reflexivity] | apply evenly_upd; [intros; reflexivity|intros; reflexivity]].
  Ltac sees_it := intros ? ? ? L; first [apply (load_looks _ _ _ _ _ L) | cbn [call_each]; rewrite (load_looks _ _ _ _ _ L);
    match goal with |- bind ?m _ = bind ?m _ => destruct m; [|reflexivity..]; cbn [bind]; rewrite (load_looks _ _ _ _ _ L); reflexivity end].
  Ltac fair := first [apply fair_plain; [reflexivity|even] | apply fair_data; [even|sees_it]].
  Ltac fairs := cbn [app]; repeat (apply Forall_cons; [fair|]); apply Forall_nil.
  Lemma lines_fair : Forall (entry_fair (alike l_src set_l_src)) (lines_table W E).
  Proof. unfold lines_table. apply Forall_app. split; [now apply fair_src|]. unfold scale_entries, label_entries. fairs. Qed.
  Lemma points_fair : Forall (entry_fair (alike p_src set_p_src)) (points_table W E).
  Proof. unfold points_table. apply Forall_app. split; [now apply fair_src|]. unfold scale_entries, label_entries, font_entries, color_entries, size_entries. cbv zeta beta. fairs. Qed.
  Lemma labels_fair : Forall (entry_fair (alike t_src set_t_src)) (labels_table W E).
  Proof. unfold labels_table. apply Forall_app. split; [now apply fair_src|]. unfold scale_entries, label_entries, font_entries, color_entries, size_entries. cbv zeta beta. fairs. Qed.
  Lemma vectors_fair : Forall (entry_fair (alike v_src set_v_src)) (vectors_table W E).
  Proof. unfold vectors_table. apply Forall_app. split; [now apply fair_src|]. unfold scale_entries, label_entries, font_entries, color_entries, size_entries. cbv zeta beta. fairs. Qed.
  Lemma rects_fair : Forall (entry_fair (alike r_src set_r_src)) (rects_table W E).
  Proof. unfold rects_table. apply Forall_app. split; [now apply fair_src|]. unfold scale_entries, label_entries, font_entries, color_entries, size_entries. cbv zeta beta. fairs. Qed.
  Lemma areas_fair : Forall (entry_fair (alike a_src set_a_src)) (areas_table W E).
  Proof. unfold areas_table. apply Forall_app. split; [now apply fair_src|]. unfold scale_entries, label_entries, font_entries, color_entries, size_entries. cbv zeta beta. fairs. Qed.
  Lemma bars_fair : Forall (entry_fair eq) (bars_table W E).
  Proof. unfold bars_table, scale_entries, label_entries, font_entries, color_entries, size_entries. cbv zeta beta. fairs. Qed.
  Lemma err_fair : Forall (entry_fair eq) (err_table W E).
  Proof. unfold err_table, scale_entries, label_entries, font_entries, color_entries, size_entries. cbv zeta beta. fairs. Qed.
End Respell.
