(** A small concrete world in which examples of the theorems about plots are checked: exact
    arithmetic, whole numbers without sign, glyphs that are a single point. *)
From Coq Require Import Reals Lra.
From Verif Require Import Base Num Sexpr_Model Dispatch_Model Dispatch_Spec Data_Model Data_Spec Data_Proofs Scale_Model Scale_Spec Scale_Proofs Scale_Proofs4
  Units_Model Color_Model Geo_Model Svg_Model Geojson_Model Cmd_Model Cmd_Spec Cmd_Proofs Style_Model Plot_Model Plot_Spec Eval_Model.
Local Open Scope R_scope.

Definition digit (c : ascii) : option Z :=
  let n := nat_of_ascii c in if (48 <=? n)%nat && (n <=? 57)%nat then Some (Z.of_nat (n - 48)) else None.
Fixpoint digits (acc : Z) (s : str) : option Z :=
  match s with
  | [] => Some acc
  | c :: r => match digit c with Some v => digits (10 * acc + v) r | None => None end
  end.
Definition demo_stod (t : str) : option (xr * nat) :=
  match t with [] => None | _ => option_map (fun z => (Fin (IZR z), length t)) (digits 0 t) end.
Definition demo_is_number (t : str) : bool := match demo_stod t with Some _ => true | None => false end.
Definition demo_files (path : str) : option str :=
  if str_eqb path (s_ "p.json") then
    Some (s_ "{""type"":""Polygon"",""coordinates"":[[[0,0],[4,0],[4,6],[0,0]]]}")
  else None.
Definition demo : world :=
  mk_world exact exact demo_stod (fun _ => []) demo_is_number demo_files (fun _ _ => []) (fun l => l) (fun l => l)
    (fun _ f => Ret f) (fun _ _ _ _ pos _ _ _ => Ret [[MoveTo pos]]) (fun _ _ _ _ => Ret (rect 0 0 10 10)) 1000.
Definition demo_env : env := mk_env layer0 [] white black black [] (mk_compound [black] [] [] []).
(** A plot with both axes from 0 to 10. *)
Definition ten : scale := mk_scale Linear (Some (Fin 0)) (Some (Fin 10)) (Fin 10) false (Fin 0) None None [] [].
Definition demo_plot : plot := mk_plot ten ten (Fin 0, Fin 0, Fin 0, Fin 0) [].

Lemma demo_exact : exact_world demo. Proof. split; reflexivity. Qed.
Lemma demo_reads t z : digits 0 t = Some z -> t <> [] -> reads demo t (IZR z).
Proof.
  intros D N. unfold reads. cbn [w_stod w_is_number demo]. unfold demo_is_number, demo_stod. destruct t; [congruence|]. rewrite D. cbn. eauto.
Qed.
Ltac demo_number := apply demo_reads; [reflexivity|discriminate].
Ltac demo_numbers := repeat (constructor; [demo_number|]); constructor.
Lemma demo_linear : linear_over ten 0 10.
Proof.
  split; [reflexivity|]. unfold scale_min, scale_max, ten. cbn. unfold exact.
  split; [|split]; try (f_equal; lra); try lra.
Qed.
Lemma demo_clip : plot_clip demo demo_env demo_plot = rect 0 0 1600 800.
Proof.
  unfold plot_clip, demo_plot, p_stack, p_margins, layout_margin_box, rect, page_width, page_height, layer_get_width, layer_get_height, device_size. cbn.
  unfold exact, xmax, xlt. f_equal; repeat destruct Rlt_dec; try (f_equal; lra); exfalso; lra.
Qed.
Lemma demo_pt v : pt demo demo_env v = Fin (v / 72 * 192).
Proof. unfold pt, unit_from_pt, dpi. cbn. unfold xdiv. destruct Req_EM_T; [lra|]. reflexivity. Qed.
