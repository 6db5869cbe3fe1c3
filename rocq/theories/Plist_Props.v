(** Property theorems: property-list programs (C16, C17). *)
From Verif Require Import Base Sexpr_Model Plist_Model Plist_Spec Plist_Proofs.

(** C16. A program written with any white space between its tokens is read as the tree it
    denotes. *)
Theorem C16_reads_tree : forall (trees : list ptree) (text : str),
  trees_text trees text -> plist_parse text = Ret (map tree_expr trees).
Proof. exact program_ok. Qed.
Print Assumptions C16_reads_tree.

(** C16. Every byte string has a quoted form, in either kind of quotes. *)
Theorem C16_any_string : forall (q : ascii) (v : str), q = c_dq \/ q = c_sq ->
  exists b, quoted (q :: b ++ [q]) v.
Proof. intros q v Hq. exists (quote_body q v). constructor; [exact Hq|apply quote_ok]. Qed.
Print Assumptions C16_any_string.

Lemma word_check (s : str) : s <> [] -> forallb (fun c => negb (word_stop c)) s = true -> word s.
Proof.
  intros NE H. split; auto. apply Forall_forall. intros c Hc. rewrite forallb_forall in H. specialize (H c Hc).
  apply negb_true_iff in H. split; intro X.
  - rewrite (space_stop c X) in H. discriminate.
  - unfold special in X. cbn in X. intuition (subst; discriminate).
Qed.

Example C16_example : trees_text
  [Block (s_ "plot") [Prop_ (s_ "title") [VStr (s_ "a;b")]; Prop_ (s_ "x") [VLit (s_ "1"); VFn (s_ "csv") [VStr (s_ "f"); VLit (s_ "c")]]]]
  (s_ "plot { title: 'a;b'; x: 1, csv('f', c);}").
Proof.
  apply (ts_cons _ (s_ "plot { title: 'a;b'; x: 1, csv('f', c);}") [] [] []); [constructor| |repeat constructor].
  apply (tt_block (s_ "plot") (s_ "plot") (s_ " ") _ (s_ " title: 'a;b'; x: 1, csv('f', c);")).
  { constructor. apply word_check; [discriminate|reflexivity]. }
  { repeat constructor. }
  apply (ts_cons _ (s_ "title: 'a;b';") _ (s_ " x: 1, csv('f', c);") (s_ " ")); [repeat constructor| |].
  - apply (tt_prop (s_ "title") (s_ "title") [] _ (s_ " 'a;b'")); [constructor; apply word_check; [discriminate|reflexivity]|constructor|].
    apply (at_one _ (s_ "'a;b'") (s_ " ") []); [repeat constructor|constructor|]. constructor.
    apply (quoted_i c_sq (s_ "a;b")); [now right|apply (quote_ok c_sq (s_ "a;b"))].
  - apply (ts_cons _ (s_ "x: 1, csv('f', c);") [] [] (s_ " ")); [repeat constructor| |repeat constructor].
    apply (tt_prop (s_ "x") (s_ "x") [] _ (s_ " 1, csv('f', c)")); [constructor; apply word_check; [discriminate|reflexivity]|constructor|].
    apply (at_cons _ (s_ "1") _ (s_ " csv('f', c)") (s_ " ") []); [repeat constructor|constructor| |discriminate|].
    { constructor. apply word_check; [discriminate|reflexivity]. }
    apply (at_one _ (s_ "csv('f', c)") (s_ " ") []); [repeat constructor|constructor|].
    apply (xt_fn (s_ "csv") _ [] (s_ "'f', c")); [apply word_check; [discriminate|reflexivity]|constructor|].
    apply (at_cons _ (s_ "'f'") _ (s_ " c") [] []); [constructor|constructor| |discriminate|].
    { constructor. apply (quoted_i c_sq (s_ "f")); [now right|apply (quote_ok c_sq (s_ "f"))]. }
    apply (at_one _ (s_ "c") (s_ " ") []); [repeat constructor|constructor|]. constructor. apply word_check; [discriminate|reflexivity].
Qed.

(** ... with white space between the arguments, as in most programs. *)
Example C16_spaces_example : trees_text
  [Prop_ (s_ "size") [VLit (s_ "1024px"); VLit (s_ "512px")]; Prop_ (s_ "x") [VFn (s_ "list") [VLit (s_ "1"); VStr (s_ "2"); VFn (s_ "f") []]]]
  (s_ "size: 1024px 512px; x: list(1 '2' f());").
Proof.
  apply (ts_cons _ (s_ "size: 1024px 512px;") _ (s_ " x: list(1 '2' f());") []); [constructor| |].
  - apply (tt_prop (s_ "size") (s_ "size") [] _ (s_ " 1024px 512px")); [constructor; apply word_check; [discriminate|reflexivity]|constructor|].
    apply (at_space _ (s_ "1024px") _ (s_ "512px") (s_ " ") (s_ " ")); [repeat constructor|repeat constructor|discriminate| |discriminate|].
    { constructor. apply word_check; [discriminate|reflexivity]. }
    apply (at_one _ (s_ "512px") [] []); [constructor|constructor|]. constructor. apply word_check; [discriminate|reflexivity].
  - apply (ts_cons _ (s_ "x: list(1 '2' f());") [] [] (s_ " ")); [repeat constructor| |repeat constructor].
    apply (tt_prop (s_ "x") (s_ "x") [] _ (s_ " list(1 '2' f())")); [constructor; apply word_check; [discriminate|reflexivity]|constructor|].
    apply (at_one _ (s_ "list(1 '2' f())") (s_ " ") []); [repeat constructor|constructor|].
    apply (xt_fn (s_ "list") _ [] (s_ "1 '2' f()")); [apply word_check; [discriminate|reflexivity]|constructor|].
    apply (at_space _ (s_ "1") _ (s_ "'2' f()") [] (s_ " ")); [constructor|repeat constructor|discriminate| |discriminate|].
    { constructor. apply word_check; [discriminate|reflexivity]. }
    apply (at_space _ (s_ "'2'") _ (s_ "f()") [] (s_ " ")); [constructor|repeat constructor|discriminate| |discriminate|].
    { constructor. apply (quoted_i c_sq (s_ "2")); [now right|apply (quote_ok c_sq (s_ "2"))]. }
    apply (at_one _ (s_ "f()") [] []); [constructor|constructor|].
    apply (xt_fn (s_ "f") [] [] []); [apply word_check; [discriminate|reflexivity]|constructor|]. constructor. constructor.
Qed.

(** C17. A program that ends inside a quoted string is rejected ... *)
Theorem C17_unterminated_string : forall s : str, scan Outside s <> Outside -> plist_parse s = Err.
Proof.
  intros s H. destruct (plist_total s) as [(xs & E)|E]; auto. exfalso. apply H. unfold plist_parse in E.
  now apply program_clean in E.
Qed.
Print Assumptions C17_unterminated_string.

(** ... and so is one whose blocks do not all close, and one that closes more parentheses
    than it opens (counted outside strings). *)
Theorem C17_unclosed_block : forall s : str, count "{"%char s <> count "}"%char s -> plist_parse s = Err.
Proof.
  intros s H. destruct (plist_total s) as [(xs & E)|E]; auto. exfalso. apply H. unfold plist_parse in E.
  now apply program_clean in E.
Qed.
Print Assumptions C17_unclosed_block.

Theorem C17_excess_closing_paren : forall s : str, count "("%char s < count ")"%char s -> plist_parse s = Err.
Proof.
  intros s H. destruct (plist_total s) as [(xs & E)|E]; auto. exfalso. unfold plist_parse in E.
  apply program_clean in E. lia.
Qed.
Print Assumptions C17_excess_closing_paren.

Example C17_example : scan Outside (s_ "a: 'b; c: d;") <> Outside /\ count "{"%char (s_ "a { b: '}';") = 1
  /\ count "}"%char (s_ "a { b: '}';") = 0 /\ count ")"%char (s_ "a: b);") = 1.
Proof. repeat split; discriminate. Qed.

(** C17 is false of unclosed parentheses: any property whose only value is a call may leave
    out the closing parenthesis, and is read as if it were there. *)
Theorem C17_unclosed_paren_refuted : forall nm nt w1 w2 f w3 args t,
  name_text nm nt -> blank w1 -> blank w2 -> word f -> blank w3 -> args_text args t ->
  plist_parse (nt ++ w1 ++ s_ ":" ++ w2 ++ f ++ w3 ++ s_ "(" ++ t ++ s_ ";") =
  Ret [tree_expr (Prop_ nm [VFn f args])].
Proof. exact unclosed_paren. Qed.
Print Assumptions C17_unclosed_paren_refuted.

Example C17_paren_example : plist_parse (s_ "x: csv(a, b;") = plist_parse (s_ "x: csv(a, b);").
Proof. reflexivity. Qed.

(** C17. Every byte string is either read or rejected; the parser never runs forever. *)
Theorem C17_total : forall s : str, (exists trees, plist_parse s = Ret trees) \/ plist_parse s = Err.
Proof. exact plist_total. Qed.
Print Assumptions C17_total.
