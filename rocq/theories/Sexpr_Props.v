(** Property theorems for S-expressions: C01-C04. *)
From Verif Require Import Base Sexpr_Model Sexpr_Spec Sexpr_Proofs.
From Verif Require Clone_Model Clone_Spec Clone_Proofs.

(** C01. The reader returns the tree list es exactly for the texts that spell es. *)
Theorem C01_parse_iff_grammar : forall (s : str) (es : list expr),
  (exists fuel, expr_parse fuel s = Ret es) <-> program s es.
Proof. exact parse_iff. Qed.
Print Assumptions C01_parse_iff_grammar.

Example C01_example : expr_parse 100 (s_ "(plot 'a\'b' x);c") = Ret [EList [ELit (s_ "plot"); EVal (s_ "a'b"); ELit (s_ "x")]].
Proof. reflexivity. Qed.

(** C01/C02. On every text without a backslash outside strings and comments, the reader
    stops within one iteration per byte, and what it answers is decided by the grammar. *)
Theorem C02_parse_terminates_partial : forall s : str, ~ bare_backslash s ->
  (exists es, expr_parse (length s) s = Ret es /\ program s es) \/
  (expr_parse (length s) s = Err /\ forall es, ~ program s es).
Proof. exact parse_total. Qed.
Print Assumptions C02_parse_terminates_partial.

Example C02_example : ~ bare_backslash (s_ "(a").
Proof.
  intros (p & r & E & _). cbn in E.
  destruct p as [|? [|? [|? p]]]; inversion E.
Qed.

(** C02 is false of the code: any well-formed text followed by a backslash makes the
    reader loop forever, e.g. the one-byte program "\". *)
Theorem C02_parse_terminates_refuted : forall (s : str) (es : list expr) (r : str),
  items s es -> forall fuel, expr_parse fuel (s ++ c_bs :: r) = Diverge.
Proof. exact (fun s es r H n => items_backslash_diverges s es r n H). Qed.
Print Assumptions C02_parse_terminates_refuted.

Example C02_refuted_example : items [] [] /\ forall fuel, expr_parse fuel [c_bs] = Diverge.
Proof.
  split; [constructor|]. intro fuel.
  exact (C02_parse_terminates_refuted [] [] [] it_nil fuel).
Qed.

(** C03. Every writing of a tree list, with whatever separators, is read back as it. *)
Theorem C03_any_layout_roundtrip : forall (es : list expr) (s : str),
  rendered es s -> exists fuel, expr_parse fuel s = Ret es.
Proof. exact rendered_parse. Qed.
Print Assumptions C03_any_layout_roundtrip.

(** C03. The canonical writer's output is read back, for all bytes and nesting. *)
Theorem C03_write_read : forall es : list expr, Forall ok_expr es ->
  exists fuel, expr_parse fuel (write_list es) = Ret es.
Proof. exact write_parse. Qed.
Print Assumptions C03_write_read.

Example C03_example : Forall ok_expr [EList [EVal [c_dq; c_bs; c_nl]; EList []]].
Proof. repeat constructor. Qed.

(** C03. The program's own printer (expr_inspect_list) is read back up to quoting when all
    values are bare words; it does not quote, so this fails for other values (below). *)
Theorem C03_inspect_read : forall es : list expr, Forall words_only es ->
  exists fuel, expr_parse fuel (inspect_list es) = Ret (map unquote es).
Proof. exact inspect_parse. Qed.
Print Assumptions C03_inspect_read.

(** Without the words_only guard the printed text denotes something else: the single value
    "a b" prints as two words. *)
Theorem C03_inspect_read_refuted :
  exists es fuel, expr_parse fuel (inspect_list es) = Ret [ELit (s_ "a"); ELit (s_ "b")]
                  /\ es = [EVal (s_ "a b")].
Proof. exists [EVal (s_ "a b")], 10. split; reflexivity. Qed.
Print Assumptions C03_inspect_read_refuted.

(** C04. Copying the chain p with a count: the old heap is untouched (so the original still
    represents es), the copy represents the first count expressions (all, for a negative
    count), and all its nodes are new. *)
Theorem C04_clone : forall (h : Clone_Model.heap) (p : option nat) (es : list expr) (count : Z),
  Clone_Spec.chain 0 h p es ->
  exists new q, Clone_Model.expr_clone (Clone_Spec.fsize es) h p count = Ret (h ++ new, q) /\
    Clone_Spec.chain (length h) (h ++ new) q (Clone_Spec.take count es) /\
    Clone_Spec.chain 0 (h ++ new) p es.
Proof. exact Clone_Proofs.clone_ok. Qed.
Print Assumptions C04_clone.

Example C04_example :
  let h := [Clone_Model.mk_node Clone_Model.LIST [] (Some 1) (Some 2);
            Clone_Model.mk_node Clone_Model.VALUE (s_ "x") None None;
            Clone_Model.mk_node Clone_Model.VALUE_LITERAL (s_ "y") None None] in
  Clone_Spec.chain 0 h (Some 0) [EList [EVal (s_ "x")]; ELit (s_ "y")] /\
  exists h', Clone_Model.expr_clone 10 h (Some 0) 1 = Ret (h', Some 3).
Proof.
  split.
  - eapply Clone_Spec.ch_list; [lia|reflexivity| |].
    + eapply Clone_Spec.ch_val; [lia|reflexivity|constructor].
    + eapply Clone_Spec.ch_lit; [lia|reflexivity|constructor].
  - eexists; reflexivity.
Qed.
