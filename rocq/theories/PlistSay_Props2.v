(** C112, continued: the text on stderr. *)
From Coq Require Import Reals ZArith Lia Permutation.
From Verif Require Import Base Dec Num Sexpr_Model Dispatch_Model Data_Model Scale_Model Units_Model Color_Model Geo_Model Svg_Model Format_Model Cmd_Model Style_Model
  Plist_Model Plist_Spec Plot_Model Eval_Model Eval_Spec Eval_Examples Demo Whole_Props Say_Model Say_Model2 Say_Props Say_Props3 PlistSay_Model PlistSay_Spec PlistSay_Props.

(** A program that cannot be read: the tool ends with a failure, writes nothing and says what the parser says. *)
Theorem C112_tool : forall (W : world) (U : unsaid) (version : str) (fonts : font) (stdin : str) (o : os) (opts : list opt) (png : bool) (path text message : str),
  to_draw opts png -> program_text W stdin path text -> plist_parse_said text = (Err, message) ->
  main_said W U version (Ret fonts) stdin o opts [path] = Ret (failure, s_ "ERROR: " ++ message ++ [c_nl]).
Proof.
  intros W U version fonts stdin o opts png path text message T PT M.
  destruct (draws W U version fonts stdin o opts png path text T PT) as (E & LC & D). apply (D message []).
  unfold eval_text_said. now rewrite M.
Qed.
Print Assumptions C112_tool.
(** The tool's answer to a block that is not closed, whatever is in it, is [ERROR: ] and nothing, or a parenthesis. *)
Theorem C112_tool_unclosed_refuted : forall (W : world) (U : unsaid) (version : str) (fonts : font) (stdin : str) (o : os) (opts : list opt) (png : bool) (path text : str) trees,
  to_draw opts png -> program_text W stdin path (s_ "plot {" ++ text) -> trees_text trees text -> exists err,
  main_said W U version (Ret fonts) stdin o opts [path] = Ret (failure, err) /\
  (err = s_ "ERROR: " ++ [c_nl] \/ err = s_ "ERROR: unexpected token; expected: RPAREN, got: SEMICOLON" ++ [c_nl]).
Proof.
  intros W U version fonts stdin o opts png path text trees T PT TT.
  assert (is_read text) as R by (eexists; apply (Plist_Proofs.program_ok trees); exact TT).
  destruct (C112_unclosed_refuted text R) as (message & M & Hm).
  eexists. split; [apply (C112_tool W U version fonts stdin o opts png path _ message T PT M)|].
  destruct Hm as [-> | ->]; [left|right]; reflexivity.
Qed.
Print Assumptions C112_tool_unclosed_refuted.

(** A program without its last brace, through the tool. *)
Definition unclosed_program : str := s_ "plot {lines { x: 1; }".
Definition unclosed_world : world :=
  mk_world (w_d chart_world) (w_f chart_world) (w_stod chart_world) (w_show chart_world) (w_is_number chart_world)
    (fun p => if str_eqb p (s_ "in.clp") then Some unclosed_program else None) (w_strftime chart_world) (w_sort_stops chart_world) (w_sort_cw chart_world)
    (w_font_load chart_world) (w_text chart_world) (w_measure chart_world) (w_fuel chart_world).
Example C112_tool_case :
  main_said unclosed_world wrong_unsaid (s_ "1") (Ret []) [] (mk_os (fun _ => true) (fun _ n => Some n) (fun n => n)) [Short "e" (s_ "out.svg")] [s_ "in.clp"] =
    Ret (failure, s_ "ERROR: " ++ [c_nl]).
Proof.
  apply (C112_tool unclosed_world wrong_unsaid (s_ "1") [] [] _ [Short "e" (s_ "out.svg")] false (s_ "in.clp") unclosed_program []).
  - repeat split.
  - right. split; [discriminate|reflexivity].
  - vm_compute. reflexivity.
Qed.
