(** A concrete drawing program. *)
From Coq Require Import Reals Lra.
From Verif Require Import Base Num Str_Model Sexpr_Model Dispatch_Model Data_Model Scale_Model Units_Model Units_Spec Color_Model Geo_Model Svg_Model
  Cmd_Model Cmd_Spec Eval_Spec Style_Model Style_Spec Style_Props Source_Spec Draw_Spec Draw_Props Eval_Model Demo Style_Props2.
Local Open Scope R_scope.

(** Reads the digits at the start of a text. *)
Fixpoint lead (s : str) : str := match s with c :: r => match Demo.digit c with Some _ => c :: lead r | None => [] end | [] => [] end.
Definition lead_stod (t : str) : option (xr * nat) :=
  match lead t with [] => None | l => option_map (fun z => (Fin (IZR z), length l)) (digits 0 l) end.
Definition page_world : world :=
  mk_world exact exact lead_stod (fun _ => []) demo_is_number demo_files (fun _ _ => []) (fun l => l) (fun l => l)
    (w_font_load demo) (fun _ _ _ t pos _ _ _ => Ret (map (fun _ => [MoveTo pos]) t)) (w_measure demo) 1000.
(** (position 25% 100px) (size 40px 72pt) (stroke solid) (position 50% 0) *)
Definition a_rectangle : list expr :=
  [opt "position" [val "25%"; val "100px"]; opt "size" [val "40px"; val "72pt"]; opt "stroke" [val "solid"]; opt "position" [val "50%"; val "0"]].
Lemma position1 : position_means page_world demo_env [val "25%"; val "100px"] (mk_vec2 (Fin 400) (Fin 100)).
Proof.
  apply (C93_position page_world demo_env 1600 800 _ _ (s_ "25%") (s_ "%") 25 2 400 (s_ "100px") (s_ "px") 100 3 100 192);
    try reflexivity; try (left; reflexivity); try (cbn; tauto); cbn; f_equal; lra.
Qed.
Lemma position2 : position_means page_world demo_env [val "50%"; val "0"] (mk_vec2 (Fin 800) (Fin 0)).
Proof.
  exists (val "50%"), (val "0"). split; [reflexivity|]. split.
  - destruct (C93_position page_world demo_env 1600 800 (val "50%") (val "100px") (s_ "50%") (s_ "%") 50 2 800 (s_ "100px") (s_ "px") 100 3 100 192)
      as (a & b & X & A & _); try reflexivity; try (left; reflexivity); try (cbn; tauto); [cbn; f_equal; lra|]. injection X as <- <-. exact A.
  - exists (s_ "0"), (Fin 0), 1%nat. split; [left; reflexivity|]. split; [reflexivity|]. left. split; [reflexivity|]. split; [|reflexivity]. unfold xeq. destruct (Req_EM_T 0 0); [reflexivity|lra].
Qed.
Lemma size1 : size_means page_world demo_env [val "40px"; val "72pt"] (mk_vec2 (Fin 40) (Fin 192)).
Proof.
  exists (val "40px"), (val "72pt"). split; [reflexivity|]. split.
  - exists (s_ "40px"), (Fin 40), 2%nat. split; [left; reflexivity|]. split; [reflexivity|]. right. split; [discriminate|]. exists PX. eexists. split; [reflexivity|]. split; reflexivity.
  - exists (s_ "72pt"), (Fin 72), 2%nat. split; [left; reflexivity|]. split; [reflexivity|]. right. split; [discriminate|]. exists PT. eexists. split; [reflexivity|]. split; [reflexivity|].
    cbn. unfold unit_from_pt, xdiv, xmul, exact. cbn. destruct (Req_EM_T 72 0); [lra|]. f_equal. unfold exact. lra.
Qed.
Definition solid_line : compound := mk_compound [] [] [mk_stroke black (pt page_world demo_env 1)] [].
Lemma a_stroke : style_adds page_world demo_env (s_ "stroke") [val "solid"] solid_line.
Proof.
  apply sa_stroke with []; [|constructor|reflexivity|reflexivity]. apply ch_word with "solid"%string; [cbn; auto|left; reflexivity].
Qed.
(** C93_rectangle, C93_program: the rectangle, then a text in the middle of the page. *)
Example C93_rectangle_case : rectangle_means page_world demo_env a_rectangle
  [painted (rectangle_around page_world (mk_vec2 (Fin 800) (Fin 0)) (mk_vec2 (Fin 40) (Fin 192))) solid_line].
Proof.
  split.
  - repeat (apply Forall_cons; [do 3 eexists; split; [|split; [reflexivity|]]|]); [left; reflexivity|eexists; exact position1|right; left; reflexivity|eexists; exact size1| |
      |left; reflexivity|eexists; exact position2|apply Forall_nil].
    + do 4 right. left. reflexivity.
    + eexists. exact a_stroke.
  - exists (mk_vec2 (Fin 800) (Fin 0)), (mk_vec2 (Fin 40) (Fin 192)), solid_line. split; [exact position2|]. split; [exact size1|]. split; [|reflexivity].
    apply so_given with [solid_line]; [|reflexivity|discriminate]. constructor; [exact a_stroke|constructor].
Qed.
Example C93_text_case : text_means page_world demo_env [opt "text" [val "ab"]]
  [painted [MoveTo (page_center page_world demo_env)] (mk_compound [black] [] [] []); painted [MoveTo (page_center page_world demo_env)] (mk_compound [black] [] [] [])].
Proof.
  split.
  - apply Forall_cons; [|apply Forall_nil]. do 3 eexists. split; [right; left; reflexivity|]. split; [reflexivity|]. exists (s_ "ab"). exists (val "ab"), []. split; [reflexivity|left; reflexivity].
  - exists (page_center page_world demo_env), (s_ "ab"), [], (page_font_size page_world demo_env), (mk_compound [black] [] [] []), [[MoveTo (page_center page_world demo_env)]; [MoveTo (page_center page_world demo_env)]].
    split; [reflexivity|]. split; [exists (val "ab"), []; split; [reflexivity|left; reflexivity]|]. split; [reflexivity|]. split; [reflexivity|]. split; [now apply so_default|]. split; reflexivity.
Qed.
Example C93_program_case : exists out, draw_eval page_world demo_env [EList (EVal (s_ "rectangle") :: a_rectangle); opt "text" [opt "text" [val "ab"]]] = Ret out /\ length out = 3%nat.
Proof.
  eexists. split; [apply C93_program; eexists; split; [constructor; [apply em_rectangle with a_rectangle; [reflexivity|exact C93_rectangle_case]|constructor; [apply em_text with [opt "text" [val "ab"]]; [reflexivity|exact C93_text_case]|constructor]]|reflexivity]|reflexivity].
Qed.
Example C93_unknown_case : forall out, draw_eval page_world demo_env [opt "circle" []] <> Ret out.
Proof. intros out H. apply C93_program in H as (parts & F & _). inversion F as [|? ? ? ? M]; subst. destruct M as [a o O|a o O]; discriminate. Qed.
Example C89_draw_styles_accepted_case : options (style_entries page_world demo_env (fun s => s) (fun v _ => v)) [opt "stroke" [val "solid"]; opt "size" []] no_style = Ret solid_line.
Proof.
  apply C89_draw_styles_accepted. split; [repeat constructor; discriminate|]. exists [solid_line]. split; [constructor; [exact a_stroke|constructor]|reflexivity].
Qed.
