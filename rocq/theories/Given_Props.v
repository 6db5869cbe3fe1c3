(** C117: when the limits of both scales are given, commands of a plot do not influence each
    other's drawings. *)
From Coq Require Import Reals Lra Permutation.
From Verif Require Import Base Num Sexpr_Model Dispatch_Model Data_Model Scale_Model Units_Model Color_Model Svg_Model Cmd_Model Cmd_Spec Cmd_Proofs
  Style_Model Plot_Model Axis_Model Eval_Model Eval_Spec Eval_Proofs Eval_Props Demo Eval_Examples Order_Proofs7 Range_Spec Given_Spec Given_Proofs6 Given_Proofs7 Given_Proofs8 Given_Demo.
Local Open Scope string_scope.
Local Open Scope list_scope.

(** The picture is made of one part for every entry of the program; leaving out any commands
    that only draw takes away exactly their parts. *)
Theorem C117_parts : forall (W : world) (E E' : env) (e : list expr) (out : list draw_command),
  class_of e (s_ "plot") -> limits_given e -> eval_exprs W E e = Ret (E', out) ->
  exists parts : list (list draw_command), length parts = length e /\ out = concat parts /\
  forall mask, leaves_drawings mask e -> eval_exprs W E (select mask e) = Ret (E', concat (select mask parts)).
Proof. intros W E E' e out. apply eval_masked. Qed.
Print Assumptions C117_parts.

(** One command that only draws is taken out: what it drew is gone, and nothing else changes. *)
Theorem C117_removed : forall (W : world) (E E' : env) (e1 e2 : list expr) (x : expr) (out : list draw_command),
  class_of (e1 ++ x :: e2) (s_ "plot") -> limits_given (e1 ++ x :: e2) -> drawing x ->
  eval_exprs W E (e1 ++ x :: e2) = Ret (E', out) ->
  exists a part b, out = a ++ part ++ b /\ eval_exprs W E (e1 ++ e2) = Ret (E', a ++ b).
Proof.
  intros W E E' e1 e2 x out C G D H. destruct (eval_masked _ _ _ _ _ C G H) as (parts & L & -> & M).
  set (yes := map (fun _ : expr => true)).
  assert (Yes : forall l, leaves_drawings (yes l) l) by (intro l; unfold leaves_drawings, yes; induction l; cbn [map]; constructor; auto).
  assert (Mk : leaves_drawings (yes e1 ++ false :: yes e2) (e1 ++ x :: e2)).
  { unfold leaves_drawings. apply Forall2_app; [apply Yes|]. constructor; [now right|apply Yes]. }
  assert (Sel : forall A (l1 : list expr) (p1 : list A) y p2 (l2 : list expr), length p1 = length l1 -> length p2 = length l2 -> select (yes l1 ++ false :: yes l2) (p1 ++ y :: p2) = p1 ++ p2).
  { intros A l1. unfold yes. induction l1 as [|z l1 IH]; intros [|q p1] y p2 l2 L1 L2; cbn [length map app select] in *; try discriminate.
    - clear -L2. revert p2 L2. induction l2 as [|z l2 IH]; intros [|q p2] L2; cbn [length map select] in *; try discriminate; [reflexivity|]. f_equal. apply IH. now injection L2.
    - f_equal. apply IH; [now injection L1|exact L2]. }
  assert (Cut : exists p1 y p2, parts = p1 ++ y :: p2 /\ length p1 = length e1 /\ length p2 = length e2).
  { rewrite app_length in L. cbn [length] in L. exists (firstn (length e1) parts). destruct (skipn (length e1) parts) as [|y p2] eqn:K.
    - apply (f_equal (@length _)) in K. rewrite skipn_length in K. cbn [length] in K. lia.
    - exists y, p2. split; [rewrite <- K; symmetry; apply firstn_skipn|]. apply (f_equal (@length _)) in K. rewrite skipn_length in K. cbn [length] in K.
      split; [rewrite firstn_length; lia|lia]. }
  destruct Cut as (p1 & y & p2 & -> & L1 & L2). exists (concat p1), y, (concat p2). rewrite concat_app. cbn [concat]. split; [reflexivity|].
  pose proof (M _ Mk) as K. rewrite (Sel expr), (Sel _ e1 p1 y p2 e2 L1 L2), concat_app in K by reflexivity. exact K.
Qed.
Print Assumptions C117_removed.

(** Two neighbouring commands change places: their drawings change places. *)
Theorem C117_swapped : forall (W : world) (E E' : env) (e1 e2 : list expr) (x y : expr) (out : list draw_command),
  class_of (e1 ++ x :: y :: e2) (s_ "plot") -> limits_given (e1 ++ x :: y :: e2) -> drawing x -> drawing y ->
  eval_exprs W E (e1 ++ x :: y :: e2) = Ret (E', out) ->
  exists a px py b, out = a ++ px ++ py ++ b /\ eval_exprs W E (e1 ++ y :: x :: e2) = Ret (E', a ++ py ++ px ++ b).
Proof. intros W E E' e1 e2 x y out. apply eval_swapped. Qed.
Print Assumptions C117_swapped.

(** Any number of commands in a row, in any order: each draws its own part wherever it stands. *)
Theorem C117_permuted : forall (W : world) (E E' : env) (e1 l e2 : list expr) (out : list draw_command),
  class_of (e1 ++ l ++ e2) (s_ "plot") -> limits_given (e1 ++ l ++ e2) -> Forall drawing l ->
  eval_exprs W E (e1 ++ l ++ e2) = Ret (E', out) ->
  exists a parts b, length parts = length l /\ out = a ++ concat parts ++ b /\
  forall ordered, Permutation (combine l parts) ordered ->
    eval_exprs W E (e1 ++ map fst ordered ++ e2) = Ret (E', a ++ concat (map snd ordered) ++ b).
Proof. intros W E E' e1 l e2 out. apply eval_permuted. Qed.
Print Assumptions C117_permuted.

(** The same without given limits, on axes that are not categorical and for data that are all
    numbers: the ranges are those of all data, in whichever order. *)
Theorem C117_swapped_free : forall (W : world) (E E' : env) (e1 e2 : list expr) (x y : expr) (out : list draw_command),
  class_of (e1 ++ x :: y :: e2) (s_ "plot") -> drawing x -> drawing y ->
  (forall ax, numeric_axis W ax (e1 ++ x :: y :: e2) scale0) ->
  (forall ax vs, plot_data W ax (e1 ++ x :: y :: e2) = Ret vs -> Forall (fun v => v <> NaN) vs) ->
  eval_exprs W E (e1 ++ x :: y :: e2) = Ret (E', out) ->
  exists a px py b, out = a ++ px ++ py ++ b /\ eval_exprs W E (e1 ++ y :: x :: e2) = Ret (E', a ++ py ++ px ++ b).
Proof. intros W E E' e1 e2 x y out. apply eval_swapped_free. Qed.
Print Assumptions C117_swapped_free.

(** Every command that only draws adds its own part at one and the same place between the
    drawings of the other commands, which it does not change. *)
Theorem C117_inserted : forall (W : world) (E E' : env) (e1 e2 : list expr) (out : list draw_command),
  class_of (e1 ++ e2) (s_ "plot") -> limits_given (e1 ++ e2) -> eval_exprs W E (e1 ++ e2) = Ret (E', out) ->
  exists a b, out = a ++ b /\
  forall x Ex ox, drawing x -> class_of (e1 ++ x :: e2) (s_ "plot") -> eval_exprs W E (e1 ++ x :: e2) = Ret (Ex, ox) ->
  Ex = E' /\ exists part, ox = a ++ part ++ b.
Proof. intros W E E' e1 e2 out. apply eval_inserted. Qed.
Print Assumptions C117_inserted.

(** Without given limits it does not hold: the range of the other scale follows the data of all
    commands, so taking out the second dot changes how the first one is drawn (it is no longer
    between the ends of the scale, and gets no position at all). *)
Theorem C117_unlimited_refuted : exists (W : world) (E : env) (e : list expr) (x : expr) (out out1 : list draw_command),
  class_of (e ++ [x]) (s_ "plot") /\ gives "limit-y" e /\ drawing x /\
  eval_exprs W E (e ++ [x]) = Ret (E, out) /\ eval_exprs W E e = Ret (E, out1) /\
  ~ exists a part b, out = a ++ part ++ b /\ out1 = a ++ b.
Proof.
  destruct dot_alone as (c & A & N), dots_both as (d & d' & B & Nd & Nd').
  exists demo, demo_env, (open_y ++ [dot "1" "1"]), (dot "3" "1"), [d; d'], [c].
  split; [|split; [|split; [|split; [exact B|split; [exact A|]]]]].
  - rewrite <- app_assoc. pose proof (open_settings ["1"; "3"]) as S. rewrite <- options_settings in S by apply open_wf. exact (proj2 (settings_ok _ _ _ _ _ S)).
  - exists (w1 "limit-y" ["0"; "10"]), [ELit (s_ "0"); ELit (s_ "10")]. split; [now left|reflexivity].
  - exists "lines", (dot_at "3" "1"). split; [cbn; tauto|reflexivity].
  - intros (a & part & b & K & L). assert (I : In c [d; d']).
    { rewrite K. assert (J : In c (a ++ b)) by (rewrite <- L; now left). rewrite !in_app_iff in *. tauto. }
    cbn [In] in I. destruct I as [->|[->|[]]]; congruence.
Qed.
Print Assumptions C117_unlimited_refuted.

(** A plot with given limits, two dots and a background between them. *)
Example C117_case : exists out,
  limits_given (limited [dot "1" "1"; back; dot "3" "1"]) /\ class_of (limited [dot "1" "1"; back; dot "3" "1"]) (s_ "plot") /\
  leaves_drawings [true; true; true; false; true] (limited [dot "1" "1"; back; dot "3" "1"]) /\
  select [true; true; true; false; true] (limited [dot "1" "1"; back; dot "3" "1"]) = limited [dot "1" "1"; dot "3" "1"] /\
  eval_exprs demo demo_env (limited [dot "1" "1"; back; dot "3" "1"]) = Ret (demo_env, out) /\ length out = 3%nat.
Proof.
  destruct dots_limited as (c & d & d' & H). exists [d; c; d']. split; [|split; [|split; [|split; [reflexivity|split; [exact H|reflexivity]]]]].
  - split; left; [exists (w1 "limit-x" ["0"; "10"])|exists (w1 "limit-y" ["0"; "5"])]; eexists; (split; [cbn; tauto|reflexivity]).
  - assert (S : options (eval_table demo) (limited [dot "1" "1"; back; dot "3" "1"]) (demo_env, s_ "plot") = Ret (demo_env, s_ "plot")) by reflexivity.
    exact (proj2 (settings_ok _ _ _ _ _ S)).
  - unfold leaves_drawings, limited. cbn [app]. do 3 (constructor; [now left|]). constructor; [right|constructor; [now left|constructor]].
    exists "background". eexists. split; [cbn; tauto|reflexivity].
Qed.
(** A dot, a background and a dot, and the same three from the last to the first. *)
Example C117_permuted_case : exists a p1 p2 p3 b, eval_exprs demo demo_env (limited [dot "1" "1"; back; dot "3" "1"]) = Ret (demo_env, a ++ p1 ++ p2 ++ p3 ++ b) /\
  length (a ++ p1 ++ p2 ++ p3 ++ b) = 3%nat /\ eval_exprs demo demo_env (limited [dot "3" "1"; back; dot "1" "1"]) = Ret (demo_env, a ++ p3 ++ p2 ++ p1 ++ b).
Proof.
  destruct C117_case as (out & G & Cl & _ & _ & H & L).
  set (e1 := [w1 "limit-x" ["0"; "10"]; w1 "limit-y" ["0"; "5"]]).
  assert (Dd : forall x, drawing (dot x "1")) by (intro x; exists "lines"; eexists; split; [cbn; tauto|reflexivity]).
  assert (Db : drawing back) by (exists "background"; eexists; split; [cbn; tauto|reflexivity]).
  destruct (C117_permuted demo demo_env demo_env e1 [dot "1" "1"; back; dot "3" "1"] [] out Cl G) as (a & parts & b & Lp & -> & P);
    [repeat constructor; first [apply Dd|exact Db]|exact H|].
  destruct parts as [|p1 [|p2 [|p3 [|]]]]; try discriminate Lp. exists a, p1, p2, p3, b.
  assert (P0 : forall x y z : list draw_command, concat [x; y; z] ++ b = x ++ y ++ z ++ b) by (intros; cbn [concat]; rewrite app_nil_r, <- !app_assoc; reflexivity).
  rewrite P0 in H, L. split; [exact H|]. split; [exact L|].
  specialize (P [(dot "3" "1", p3); (back, p2); (dot "1" "1", p1)]). cbn [map fst snd] in P. rewrite P0 in P. apply P.
  exact (Permutation_rev [(dot "1" "1", p1); (back, p2); (dot "3" "1", p3)]).
Qed.
(** Two dots on an axis without limits. *)
Example C117_free_case : exists out, (forall ax, numeric_axis demo ax (open_y ++ [dot "1" "1"; dot "3" "1"]) scale0) /\
  (forall ax vs, plot_data demo ax (open_y ++ [dot "1" "1"; dot "3" "1"]) = Ret vs -> Forall (fun v => v <> NaN) vs) /\
  class_of (open_y ++ [dot "1" "1"; dot "3" "1"]) (s_ "plot") /\
  eval_exprs demo demo_env (open_y ++ [dot "1" "1"; dot "3" "1"]) = Ret (demo_env, out) /\ length out = 2%nat.
Proof.
  destruct dots_both as (c & d & B & _). exists [c; d]. split; [|split; [|split; [|split; [exact B|reflexivity]]]].
  - intros ax pre post s Q S. assert (K : match element_scale demo (name ax) pre scale0 with Ret s => s_kind s = Linear | _ => True end).
    { unfold open_y in Q. cbn [app] in Q. destruct pre as [|? pre]; [destruct ax; reflexivity|]. cbn [app] in Q. injection Q as <- Q.
      destruct pre as [|? pre]; [destruct ax; reflexivity|]. cbn [app] in Q. injection Q as <- Q. destruct pre as [|? pre]; [destruct ax; reflexivity|].
      cbn [app] in Q. injection Q as <- Q. destruct pre as [|? pre]; [destruct ax; reflexivity|discriminate]. }
    rewrite S in K. congruence.
  - intros [] vs H; assert (K : plot_data demo X (open_y ++ [dot "1" "1"; dot "3" "1"]) = Ret [Fin 1; Fin 3]) by reflexivity;
      assert (K' : plot_data demo Y (open_y ++ [dot "1" "1"; dot "3" "1"]) = Ret [Fin 1; Fin 1]) by reflexivity.
    + rewrite K in H. injection H as <-. repeat constructor; discriminate.
    + rewrite K' in H. injection H as <-. repeat constructor; discriminate.
  - pose proof (open_settings ["1"; "3"]) as S. rewrite <- options_settings in S by apply open_wf. exact (proj2 (settings_ok _ _ _ _ _ S)).
Qed.
