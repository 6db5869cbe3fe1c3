(** Theorems about data options: C91. *)
From Coq Require Import Reals.
From Verif Require Import Base Num Csv_Model Csv_Spec Csv_Proofs Sexpr_Model Dispatch_Model Dispatch_Proofs Data_Model Data_Spec Data_Proofs Scale_Model
  Cmd_Model Cmd_Spec Cmd_Proofs Style_Model Style_Spec Style_Props Plot_Model Source_Spec Demo.

Lemma is_text_value x r t : is_text x t <-> value_of (x :: r) = Some t.
Proof.
  unfold is_text. destruct x; cbn [value_of]; split; intro H.
  - destruct H; discriminate.
  - discriminate.
  - destruct H as [H|H]; congruence.
  - right. congruence.
  - destruct H as [H|H]; congruence.
  - left. congruence.
Qed.
Lemma headed_spec e n a : list_headed e (s_ n) = Some a <-> exists w r, e = EList (w :: a) :: r /\ word n w.
Proof. exact (list_of_spec e n a). Qed.
Lemma file_nil_inv txt : file txt [] <-> txt = [].
Proof. split; [inversion 1; reflexivity|]. intros ->. constructor. Qed.
Lemma column_means txt column vs : no_final_comma txt ->
  (exists data, csv_parse (length txt) txt = Ret data /\ csv_extract_column data column = (vs, Ret tt)) <-> csv_values txt column vs.
Proof.
  intro NC. split.
  - intros (data & P & X). apply (csv_iff _ _ NC) in P. destruct data as [|h rows]; cbn [csv_extract_column] in X.
    + injection X as <-. apply cv_empty. now apply file_nil_inv.
    + destruct (index_of column h) as [i|] eqn:I; [|discriminate]. apply index_of_spec in I as [I J]. apply extract_ok in X. now apply cv_rows with h rows i.
  - intros [->|h rows i vs' F N J X]; [exists []; auto|]. exists (h :: rows). split; [now apply (csv_iff _ _ NC)|]. cbn [csv_extract_column].
    rewrite (proj2 (index_of_spec column h i) (conj N J)). now apply extract_ok.
Qed.
Lemma load_csv_means W a vs w r : plain_files W -> word "csv" w ->
  load_csv (w_read_file W) a = (vs, Ret tt) <-> csv_data (w_read_file W) (EList (w :: a) :: r) vs.
Proof.
  intros PF HW. unfold csv_data, load_csv. split.
  - destruct a as [|p [|c [|]]]; try discriminate.
    destruct (value_of [p; c]) as [path|] eqn:VP; [|discriminate]. destruct (value_of [c]) as [column|] eqn:VC; [|discriminate].
    destruct (w_read_file W path) as [txt|] eqn:R; [|discriminate].
    destruct (csv_parse (length txt) txt) as [data| | | |] eqn:P; try discriminate. intro X.
    exists w, p, c, path, column, txt, r. apply is_text_value in VP, VC. repeat split; auto. apply (column_means _ _ _ (PF _ _ R)). eauto.
  - intros (w' & p & c & path & column & txt & r' & X & _ & VP & VC & R & V). injection X as <- -> <-.
    rewrite (proj1 (is_text_value p [c] path) VP), (proj1 (is_text_value c [] column) VC), R. apply (column_means _ _ _ (PF _ _ R)) in V as (data & P & X). now rewrite P.
Qed.
Lemma word_two n m w : word n w -> word m w -> n = m.
Proof. exact (word_inj n m w). Qed.
Lemma written_raw l vs : written l vs <-> (forall x, In x l -> exists t, is_text x t) /\ vs = map raw_value l.
Proof.
  split.
  - induction 1 as [|x t l vs H F (A & ->)]; [split; [intros _ []|reflexivity]|]. split.
    + intros y [<-|I]; eauto.
    + destruct H as [->| ->]; reflexivity.
  - intros (A & ->). induction l as [|x l IH]; cbn [map]; constructor.
    + destruct (A x (or_introl eq_refl)) as (t & [->| ->]); [left|right]; reflexivity.
    + apply IH. intros y I. apply A. now right.
Qed.
Lemma inline_adds l : forall b : databuf xr, load_inline xr l b = fold_left (databuf_add_text xr) (map raw_value l) b.
Proof. unfold load_inline. induction l as [|x l IH]; intro b; cbn [fold_left map]; [reflexivity|apply IH]. Qed.
Lemma ended_ok {A} (a : A) o r : ended (a, o) = Ret r <-> o = Ret tt /\ a = r.
Proof. unfold ended. destruct o as [[]| | | |]; cbn; split; try discriminate; try (intros (X & _); discriminate); [intro H; injection H; auto|intros (_ & ->); reflexivity]. Qed.

(** C91. The values that a data option adds to a column are those of the column of the CSV file,
    or those that are written, in order, behind what other options have put there. *)
Theorem C91_column : forall W e vs l show old, plain_files W -> data_means (w_read_file W) e vs ->
  exists b, load_simple W e (fold_left (do_add xr) l (empty_buf xr)) = Ret b /\
    databuf_to_text xr show b old = Ret (old ++ map (as_text xr show) l ++ vs).
Proof.
  intros W e vs l show old PF D. set (b0 := fold_left _ _ _).
  exists (fold_left (databuf_add_text xr) vs b0). split.
  - unfold load_simple, data_load_simple. destruct D as [e vs D|w a r vs HW D|a vs D].
    + pose proof D as (w & p & c & path & column & txt & r & -> & HW & _). rewrite (proj2 (headed_spec _ "csv" [p; c])) by eauto.
      apply (load_csv_means W [p; c] vs w r PF HW) in D. rewrite D. reflexivity.
    + destruct (list_headed (EList (w :: a) :: r) (s_ "csv")) as [x|] eqn:C.
      { apply headed_spec in C as (w' & r' & X & Y). injection X as <- <- <-. discriminate (word_two _ _ _ HW Y). }
      rewrite (proj2 (headed_spec _ "list" a)) by eauto. apply written_raw in D as (_ & ->). rewrite inline_adds. reflexivity.
    + destruct a as [|x a]; [inversion D; reflexivity|]. assert (T : exists t, is_text x t) by (inversion D; eauto).
      destruct T as (t & T). assert (N : forall n, list_headed (x :: a) n = None) by (intro n; destruct T as [->| ->]; reflexivity). rewrite !N.
      apply written_raw in D as (_ & ->). rewrite inline_adds. reflexivity.
  - assert (X : fold_left (databuf_add_text xr) vs b0 = fold_left (do_add xr) (l ++ map AddText vs) (empty_buf xr)).
    { rewrite fold_left_app. fold b0. generalize b0. clear. induction vs as [|v vs IH]; intro b; cbn [fold_left map]; [reflexivity|apply IH]. }
    rewrite X. destruct (databuf_history xr show (fun _ => NaN) (l ++ map AddText vs) old []) as (_ & H & _). rewrite H. now rewrite map_app, map_map, map_id.
Qed.
Print Assumptions C91_column.
(** C91. (csv FILE COLUMN) is accepted only if the file can be read, is a CSV file, has the
    column and every row has a field there. *)
Theorem C91_csv : forall W w a r b b', plain_files W -> word "csv" w ->
  load_simple W (EList (w :: a) :: r) b = Ret b' <->
  exists vs, csv_data (w_read_file W) (EList (w :: a) :: r) vs /\ b' = fold_left (databuf_add_text xr) vs b.
Proof.
  intros W w a r b b' PF HW. unfold load_simple, data_load_simple. rewrite (proj2 (headed_spec _ "csv" a)) by eauto.
  destruct (load_csv (w_read_file W) a) as [vs o] eqn:L. rewrite ended_ok. split.
  - intros (-> & <-). exists vs. split; [|reflexivity]. now apply (load_csv_means W a vs w r PF HW).
  - intros (vs' & D & ->). apply (load_csv_means W a vs' w r PF HW) in D. rewrite L in D. injection D as -> ->. auto.
Qed.
Print Assumptions C91_csv.
(** C91 is false for other lists: a list with a misspelt head, or a list among the values, is
    taken for one empty text instead of being an error. *)
Theorem C91_other_list_refuted : forall W l b, (forall w a, l = w :: a -> ~ word "csv" w /\ ~ word "list" w) ->
  load_simple W [EList l] b = Ret (databuf_add_text xr b []).
Proof.
  intros W l b H. unfold load_simple, data_load_simple.
  assert (N : forall n, (n = "csv" \/ n = "list")%string -> list_headed [EList l] (s_ n) = None).
  { intros n Q. destruct (list_headed [EList l] (s_ n)) as [a|] eqn:X; [|reflexivity]. apply headed_spec in X as (w & r & Y & HW). injection Y as ->.
    destruct (H w a eq_refl) as (A & B). destruct Q as [->| ->]; contradiction. }
  rewrite !N by auto. reflexivity.
Qed.
Print Assumptions C91_other_list_refuted.
Theorem C91_nested_refuted : forall W w l1 x l2 b, word "list" w -> load_simple W [EList (w :: l1 ++ EList x :: l2)] b = load_simple W [EList (w :: l1 ++ EVal [] :: l2)] b.
Proof.
  intros W w l1 x l2 b HW. unfold load_simple, data_load_simple.
  assert (N : forall l, list_headed [EList (w :: l)] (s_ "csv") = None).
  { intro l. destruct (list_headed _ _) as [a|] eqn:X; [|reflexivity]. apply headed_spec in X as (w' & r & Y & HW'). injection Y as <- <- <-. discriminate (word_two _ _ _ HW HW'). }
  rewrite !N. rewrite !(proj2 (headed_spec [EList (w :: _)] "list" _)) by eauto. rewrite !inline_adds, !map_app. reflexivity.
Qed.
Print Assumptions C91_nested_refuted.
(** C91 is false for columns of a file without text: no column is missing. *)
Theorem C91_empty_file_refuted : forall W w p c path column r b, word "csv" w -> is_text p path -> is_text c column -> w_read_file W path = Some [] ->
  load_simple W (EList [w; p; c] :: r) b = Ret b.
Proof.
  intros W w p c path column r b HW P C R. unfold load_simple, data_load_simple. rewrite (proj2 (headed_spec _ "csv" [p; c])) by eauto. unfold load_csv.
  rewrite (proj1 (is_text_value p [c] path) P), (proj1 (is_text_value c [] column) C), R. reflexivity.
Qed.
Print Assumptions C91_empty_file_refuted.

(** C91, lists of texts (labels, colors, sizes): the same forms without (list ...); the values
    that are written replace the earlier ones, but those of a CSV file are put behind them. *)
Theorem C91_strings : forall W e old r, plain_files W ->
  rd_strings W e old = Ret r <-> (exists vs, csv_data (w_read_file W) e vs /\ r = old ++ vs) \/ (~ headed "csv" e /\ written e r).
Proof.
  intros W e old r PF. unfold rd_strings, data_load_strings. destruct (list_headed e (s_ "csv")) as [a|] eqn:C.
  - apply headed_spec in C as (w & r' & -> & HW). destruct (load_csv (w_read_file W) a) as [vs o] eqn:L. rewrite ended_ok. split.
    + intros (-> & <-). left. exists vs. split; [|reflexivity]. now apply (load_csv_means W a vs w r' PF HW).
    + intros [(vs' & D & ->)|[N _]]; [|destruct N; unfold headed; eauto]. apply (load_csv_means W a vs' w r' PF HW) in D. rewrite L in D. injection D as -> ->. auto.
  - assert (X : ended (expr_to_strings e old) = Ret r <-> written e r).
    { unfold expr_to_strings, expr_tov, written.
      assert (G : forall l acc, ended (tov_loop expr_to_string l acc) = Ret r <-> exists m, r = acc ++ m /\ Forall2 is_text l m).
      { clear. induction l as [|x l IH]; intro acc; cbn [tov_loop].
        - split; [intro H; injection H as <-; exists []; rewrite app_nil_r; auto|]. intros (m & -> & F). inversion F. now rewrite app_nil_r.
        - unfold expr_to_string at 1. destruct (value_of (x :: l)) as [v|] eqn:V.
          + rewrite IH. apply is_text_value in V. split.
            * intros (m & -> & F). exists (v :: m). rewrite <- app_assoc. auto.
            * intros (m & -> & F). inversion F as [|? v' ? m' V' F']; subst. apply (is_text_value x l) in V, V'. assert (v' = v) by congruence. subst. exists m'. now rewrite <- app_assoc.
          + split; [discriminate|]. intros (m & _ & F). inversion F as [|? ? ? ? V']; subst. apply (is_text_value x l) in V'. congruence. }
      rewrite G. split; [intros (m & -> & F); exact F|intro F; exists r; auto]. }
    rewrite X. split; [right; split; [|assumption]|].
    + intros (w & a & r' & -> & HW). rewrite (proj2 (headed_spec _ "csv" a)) in C by eauto. discriminate.
    + intros [(vs & D & ->)|[_ D]]; [|exact D]. destruct D as (w & p & c & path & column & txt & r' & -> & HW & _).
      rewrite (proj2 (headed_spec _ "csv" [p; c])) in C by eauto. discriminate.
Qed.
Print Assumptions C91_strings.

(** C91, lines from a CSV file: the columns named by data-x and data-y, or x and y. *)
Definition column_name (ref : list expr) (dflt : string) (name : str) : Prop :=
  (exists x r, ref = x :: r /\ is_text x name) \/ ((forall x r t, ref = x :: r -> ~ is_text x t) /\ name = s_ dflt).
Lemma key_of_name ref dflt : column_name ref dflt (key_of ref (s_ dflt)).
Proof.
  unfold column_name, key_of. destruct ref as [|x r]; [right; split; [discriminate|reflexivity]|].
  destruct (value_of (x :: r)) as [v|] eqn:V; [left; exists x, r; split; [reflexivity|]; now apply is_text_value in V|].
  right. split; [|reflexivity]. intros x' r' t X T. injection X as <- <-. apply (is_text_value x r) in T. congruence.
Qed.
Theorem C91_lines_csv : forall W path fmt rx ry bx by_ ix, plain_files W -> path <> [] -> detect_format path fmt = s_ "csv" ->
  (forall l r, rx <> EList l :: r) -> (forall l r, ry <> EList l :: r) ->
  load_lines W (mk_src path fmt rx ry) = Ret ((bx, by_), ix) <->
  ix = [] /\ exists txt nx ny xs ys, w_read_file W path = Some txt /\ column_name rx "x" nx /\ column_name ry "y" ny /\
    csv_values txt nx xs /\ csv_values txt ny ys /\
    bx = fold_left (databuf_add_text xr) xs (empty_buf xr) /\ by_ = fold_left (databuf_add_text xr) ys (empty_buf xr).
Proof.
  intros W path fmt rx ry bx by_ ix PF NE D NX NY. unfold load_lines. cbn [d_x d_y d_ref d_fmt].
  assert (IX : forall ref b, (forall l r, ref <> EList l :: r) -> load_inline_ref W ref b = Ret b).
  { intros ref b N. unfold load_inline_ref. destruct ref as [|[l|v|v] r]; try reflexivity. destruct (N l r eq_refl). }
  rewrite !IX by assumption. cbn [bind]. destruct path as [|c0 path]; [congruence|]. rewrite D. change (str_eqb (s_ "csv") (s_ "csv")) with true. cbv iota.
  unfold load_lines_csv. cbn [d_x d_y d_ref d_fmt].
  assert (NM : forall ref dflt n, column_name ref dflt n -> n = key_of ref (s_ dflt)).
  { intros ref dflt n [(x & r & -> & T)|(N & ->)]; unfold key_of.
    - apply (is_text_value x r) in T. now rewrite T.
    - destruct ref as [|x r]; [reflexivity|]. destruct (value_of (x :: r)) as [v|] eqn:V; [|reflexivity]. apply is_text_value in V. destruct (N x r v eq_refl V). }
  split.
  - intro H. inv_bind H. injection H as -> <-. split; [reflexivity|]. destruct (w_read_file W (c0 :: path)) as [txt|] eqn:R; [|discriminate].
    inv_bind A. inv_bind A. inv_bind A. injection A as -> ->. unfold add_column in A1, A2.
    destruct (csv_extract_column v (key_of rx (s_ "x"))) as [xs ox] eqn:X. destruct (csv_extract_column v (key_of ry (s_ "y"))) as [ys oy] eqn:Y.
    destruct ox as [[]| | | |]; try discriminate. destruct oy as [[]| | | |]; try discriminate. injection A1 as <-. injection A2 as <-.
    exists txt, (key_of rx (s_ "x")), (key_of ry (s_ "y")), xs, ys. split; [reflexivity|]. split; [apply key_of_name|]. split; [apply key_of_name|].
    split; [apply (column_means _ _ _ (PF _ _ R)); eauto|]. split; [apply (column_means _ _ _ (PF _ _ R)); eauto|]. split; reflexivity.
  - intros (-> & txt & nx & ny & xs & ys & R & Cx & Cy & X & Y & -> & ->). rewrite R. apply NM in Cx, Cy. subst nx ny.
    apply (column_means _ _ _ (PF _ _ R)) in X as (data & P & X). apply (column_means _ _ _ (PF _ _ R)) in Y as (data' & P' & Y). rewrite P in P'. injection P' as <-.
    rewrite P. cbn [bind]. unfold add_column. rewrite X, Y. reflexivity.
Qed.
Print Assumptions C91_lines_csv.
