(** Model of /repo/src/scale.cc and scale.h. *)
From Verif Require Import Base Sexpr_Model Dispatch_Model Csv_Model Data_Model Num.
Local Open Scope R_scope.

(** ScaleKind, /repo/src/scale.h:29-31. *)
Inductive skind := Linear | Logarithmic | Categorical.

(** ScaleConfig with its ScaleLimitHints, /repo/src/scale.h:33-49. The hints are reached
    through a shared_ptr in the code (copies of a scale share them); here they are part of
    the scale. categories_map is an association list, newest binding first. *)
Record scale := mk_scale {
  s_kind : skind; s_min : option xr; s_max : option xr; s_log_base : xr; s_inverted : bool;
  s_padding : xr; h_min : option xr; h_max : option xr;
  s_categories : list str; s_cmap : list (str * nat) }.

(** ScaleConfig::ScaleConfig, /repo/src/scale.cc:32-37. *)
Definition scale0 : scale := mk_scale Linear None None (Fin 10) false (Fin 0) None None [] [].

(** ScaleLayout, /repo/src/scale.h:51-54. *)
Record layout := mk_layout { positions : list xr; labels : list str }.

(** A ScaleLayoutFn built by scale_configure_layout: the bound function with its arguments. *)
Inductive placement :=
| PLinear (step : xr) | PAlign (step : xr) | PAlignAt (step align : xr)
| PInterval (step b e : xr) | PExp (base : xr) | PExpSteps (base steps : xr)
| PSubdivide (n : xr) | PCategorical | PCategoricalBounds | PNone.

Section Scale.
  (** Rounding of double ([d]) and of float ([f]) operations. *)
  Variables d f : R -> R.

  (** scale_fit(scale, double), /repo/src/scale.cc:43-50. *)
  Definition fit (s : scale) (v : xr) : scale :=
    let lo := match h_min s with
              | None => Some v
              | Some m => if xlt v m then Some v else Some m end in
    let hi := match h_max s with
              | None => Some v
              | Some m => if xlt m v then Some v else Some m end in
    mk_scale (s_kind s) (s_min s) (s_max s) (s_log_base s) (s_inverted s) (s_padding s)
      lo hi (s_categories s) (s_cmap s).

  Definition fit_all (s : scale) (vs : list xr) : scale := fold_left fit vs s.

  (** scale_min, /repo/src/scale.cc:74-85: the local [min_auto] is a float. *)
  Definition scale_min (s : scale) : xr :=
    let auto := match h_min s with
                | Some h => xround f (xsub d h (s_padding s))
                | None => Fin 0 end in
    match s_min s with Some m => m | None => auto end.

  (** scale_max, /repo/src/scale.cc:87-98. *)
  Definition scale_max (s : scale) : xr :=
    let auto := match h_max s with
                | Some h => xround f (xadd d h (s_padding s))
                | None => Fin 1 end in
    match s_max s with Some m => m | None => auto end.

  (** scale_translate_linear, /repo/src/scale.cc:100-113. *)
  Definition translate_linear (s : scale) (v : xr) : xr :=
    let mn := scale_min s in
    let mx := scale_max s in
    let vt := xdiv d (xsub d v mn) (xsub d mx mn) in
    if s_inverted s then xsub d (Fin 1) vt else vt.

  (** scale_translate_log, /repo/src/scale.cc:115-142. *)
  Definition log_of (base x : xr) : xr :=
    if xeq x (Fin 0) then Fin 0 else xdiv d (xlog d x) (xlog d base).
  Definition translate_log (s : scale) (v : xr) : xr :=
    if xle v (Fin 0) then Fin 0 else
    let min_log := log_of (s_log_base s) (scale_min s) in
    let max_log := log_of (s_log_base s) (scale_max s) in
    let vf := log_of (s_log_base s) v in
    let vt := xdiv d (xsub d vf min_log) (xsub d max_log min_log) in
    if s_inverted s then xsub d (Fin 1) vt else vt.

  (** scale_translate_categorical, /repo/src/scale.cc:144-151; std::clamp with an upper
      limit below the lower one is undefined (no categories). *)
  Definition translate_categorical (s : scale) (index : nat) : outcome xr :=
    let n := Fin (d (INR (length (s_categories s)))) in
    let hi := xsub d n (Fin 1) in
    if xlt hi (Fin 0) then UB else
    let v := Fin (d (INR index)) in
    let i := if xlt v (Fin 0) then Fin 0 else if xlt hi v then hi else v in
    let p := s_padding s in
    Ret (xdiv d (xadd d i p) (xadd d (xsub d n (Fin 1)) (xmul d p (Fin 2)))).

  (** scale_translate, /repo/src/scale.cc:153-168; a categorical scale converts the value to
      size_t. *)
  Definition scale_translate (s : scale) (v : xr) : outcome xr :=
    match s_kind s with
    | Linear => Ret (translate_linear s v)
    | Logarithmic => Ret (translate_log s v)
    | Categorical => let* i := to_unsigned 64 v in translate_categorical s i
    end.

  (** scale_translatev, /repo/src/scale.cc:170-182. *)
  Fixpoint translatev (s : scale) (vs : list xr) : outcome (list xr) :=
    match vs with
    | [] => Ret []
    | v :: r => let* x := scale_translate s v in let* xs := translatev s r in Ret (x :: xs)
    end.

  (** scale_untranslate_linear, scale_untranslate_log and scale_untranslate,
      /repo/src/scale.cc:306-342. *)
  Definition untranslate_linear (s : scale) (vt : xr) : xr :=
    let mn := scale_min s in
    let mx := scale_max s in
    let vt := if s_inverted s then xsub d (Fin 1) vt else vt in
    xadd d mn (xmul d (xsub d mx mn) vt).
  Definition untranslate_log (s : scale) (vt : xr) : xr :=
    let mn := scale_min s in
    let mx := scale_max s in
    let range := xsub d mx mn in
    let range_log := xdiv d (xlog d range) (xlog d (s_log_base s)) in
    let vt := if s_inverted s then xsub d (Fin 1) vt else vt in
    xadd d mn (xpow d (s_log_base s) (xmul d vt range_log)).
  Definition scale_untranslate (s : scale) (vt : xr) : xr :=
    match s_kind s with
    | Linear => untranslate_linear s vt
    | Logarithmic => untranslate_log s vt
    | Categorical => Fin 0
    end.

  (** scale_translate_magnitude, /repo/src/scale.cc:261-278. *)
  Definition translate_magnitude (s : scale) (v : xr) : xr :=
    match s_kind s with
    | Linear | Logarithmic => xdiv d v (xsub d (scale_max s) (scale_min s))
    | Categorical => Fin 1
    end.

  Section Columns.
    (** std::to_string(double), std::stod and StringUtil::isNumber. *)
    Variable show : xr -> str.
    Variable stod : str -> option (xr * nat).
    Variable is_number : str -> bool.

    (** parse_f64, /repo/src/utils/algo.cc:18-24. *)
    Definition parse_f64 (s : str) : xr :=
      match stod s with Some (v, _) => v | None => NaN end.

    Notation databuf := (databuf xr).
    Notation buf_text := (databuf_to_text xr show).
    Notation buf_numbers := (databuf_to_numbers xr parse_f64).

    (** scale_map_categories, /repo/src/scale.cc:237-259: appends to *values, which keeps
        what was already delivered when an unknown value is met. *)
    Fixpoint map_loop (s : scale) (ts : list str) (values : list xr) : list xr * outcome unit :=
      match ts with
      | [] => (values, Ret tt)
      | t :: r => match assoc t (s_cmap s) with
                  | Some i => map_loop s r (values ++ [Fin (d (INR i))])
                  | None => (values, Err)
                  end
      end.
    Definition map_categories (s : scale) (b : databuf) (values : list xr)
      : list xr * outcome unit :=
      match buf_text b [] with
      | Ret ts => map_loop s ts values
      | Err => (values, Err) | Throw => (values, Throw) | UB => (values, UB)
      | Diverge => (values, Diverge)
      end.

    (** scale_fit(scale, DataBuffer), /repo/src/scale.cc:52-72. *)
    Definition fit_buf (s : scale) (b : databuf) : outcome scale :=
      match s_kind s with
      | Categorical =>
          match map_categories s b [] with
          | (vs, Ret _) => Ret (fit_all s vs)
          | (_, Err) => Err | (_, Throw) => Throw | (_, UB) => UB | (_, Diverge) => Diverge
          end
      | _ => let* vs := buf_numbers b [] in Ret (fit_all s vs)
      end.

    (** scale_translatev(scale, DataBuffer, values), /repo/src/scale.cc:184-235. *)
    Fixpoint check_numeric (b : databuf) (ix : list (dtype * nat)) : outcome unit :=
      match ix with
      | [] => Ret tt
      | (Number, _) :: r => check_numeric b r
      | (Text, pos) :: r =>
          match nth_error (text xr b) pos with
          | None => UB
          | Some t => if is_number t then check_numeric b r else Err
          end
      end.
    Definition translatev_buf (s : scale) (b : databuf) : outcome (list xr) :=
      match s_kind s with
      | Categorical =>
          match map_categories s b [] with
          | (vs, Ret _) => translatev s vs
          | (_, Err) => Err | (_, Throw) => Throw | (_, UB) => UB | (_, Diverge) => Diverge
          end
      | _ =>
          let* _ := check_numeric b (index xr b) in
          let* vs := buf_numbers b [] in
          translatev s vs
      end.

    (** scale_translate_magnitudev, /repo/src/scale.cc:280-296. *)
    Definition translate_magnitudev (s : scale) (b : databuf) : outcome (list xr) :=
      let* vs := buf_numbers b [] in Ret (map (translate_magnitude s) vs).

    (** expr_is_value(expr, v) and expr_is_list(expr, v), /repo/src/sexpr.cc:123-125,159-161. *)
    Definition is_val (e : list expr) (v : str) : bool :=
      match value_of e with Some x => str_eqb x v | None => false end.

    Definition set_kind (s : scale) (k : skind) : scale :=
      mk_scale k (s_min s) (s_max s) (s_log_base s) (s_inverted s) (s_padding s)
        (h_min s) (h_max s) (s_categories s) (s_cmap s).
    Definition set_log_base (s : scale) (b : xr) : scale :=
      mk_scale (s_kind s) (s_min s) (s_max s) b (s_inverted s) (s_padding s)
        (h_min s) (h_max s) (s_categories s) (s_cmap s).
    Definition set_inverted (s : scale) : scale :=
      mk_scale (s_kind s) (s_min s) (s_max s) (s_log_base s) true (s_padding s)
        (h_min s) (h_max s) (s_categories s) (s_cmap s).
    (** kind = CATEGORICAL; padding = 0.5, /repo/src/scale.cc:387-388. *)
    Definition set_categorical (s : scale) : scale :=
      mk_scale Categorical (s_min s) (s_max s) (s_log_base s) (s_inverted s) (Fin (1 / 2))
        (h_min s) (h_max s) (s_categories s) (s_cmap s).
    Definition set_categories (s : scale) (c : list str) : scale :=
      mk_scale (s_kind s) (s_min s) (s_max s) (s_log_base s) (s_inverted s) (s_padding s)
        (h_min s) (h_max s) c (s_cmap s).

    (** categories_map[categories[i]] = i for i = 0, 1, ..., /repo/src/scale.cc:396-398. *)
    Fixpoint number_categories (c : list str) (i : nat) (m : list (str * nat)) : list (str * nat) :=
      match c with
      | [] => m
      | x :: r => number_categories r (S i) ((x, i) :: m)
      end.
    Definition index_categories (s : scale) : scale :=
      mk_scale (s_kind s) (s_min s) (s_max s) (s_log_base s) (s_inverted s) (s_padding s)
        (h_min s) (h_max s) (s_categories s) (number_categories (s_categories s) 0 (s_cmap s)).

    Section Files.
    Variable read_file : str -> option str.

    (** scale_configure_kind, /repo/src/scale.cc:355-415: the scale as left behind and the
        return code. *)
    Fixpoint configure_kind (e : list expr) (s : scale) : scale * outcome unit :=
      match e with
      | [] => (s, Ret tt)
      | _ :: rest =>
          if is_val e (s_ "linear") then configure_kind rest (set_kind s Linear)
          else if is_val e (s_ "log") || is_val e (s_ "logarithmic") then
            configure_kind rest (set_kind s Logarithmic)
          else
          let log_args := match list_headed e (s_ "log") with
                          | Some a => Some a | None => list_headed e (s_ "logarithmic") end in
          match log_args with
          | Some args =>
              match expr_to_float64 stod args with
              | Ret b => configure_kind rest (set_log_base (set_kind s Logarithmic) b)
              | Err => (set_kind s Logarithmic, Err)
              | Throw => (set_kind s Logarithmic, Throw)
              | UB => (set_kind s Logarithmic, UB)
              | Diverge => (set_kind s Logarithmic, Diverge)
              end
          | None =>
          if is_val e (s_ "invert") || is_val e (s_ "inverted") then
            configure_kind rest (set_inverted s)
          else if is_val e (s_ "categorical") then configure_kind rest (set_categorical s)
          else
          match list_headed e (s_ "categorical") with
          | Some args =>
              let s1 := set_categorical s in
              let '(c, o) := data_load_strings read_file args (s_categories s1) in
              let s2 := set_categories s1 c in
              match o with
              | Ret _ => configure_kind rest (index_categories s2)
              | _ => (s2, o)
              end
          | None => (s, Err)
          end
          end
      end.
    End Files.

    (** ---- tick layouts ---- *)
    Variable fmt : nat -> str -> str.   (* Formatter, /repo/src/format.h:22 *)

    Definition empty_layout : layout := mk_layout [] [].
    Definition add_tick (l : layout) (p : xr) (lab : str) : layout :=
      mk_layout (positions l ++ [p]) (labels l ++ [lab]).

    (** kMaxTicks, /repo/src/scale.cc:29; EPSILON, :30. *)
    Definition max_ticks : xr := Fin 8192.
    Definition epsilon : xr := Fin (d (1 / 1000)).

    (** The loop `for (auto v = begin; v <= end; v += step)` shared by the linear layouts;
        [skip] says whether ticks with a negative position are left out (alignat, align). *)
    Fixpoint tick_loop (fuel : nat) (skip : bool) (s : scale) (v e step : xr) (idx : nat)
        (l : layout) : outcome layout :=
      match fuel with
      | O => Diverge
      | S fuel' =>
          if xle v e then
            let* vp := scale_translate s v in
            if skip && xlt vp (Fin 0) then tick_loop fuel' skip s (xadd d v step) e step idx l
            else tick_loop fuel' skip s (xadd d v step) e step (S idx)
                   (add_tick l vp (fmt idx (show v)))
          else Ret l
      end.

    (** The check for too many ticks followed by the loop. The layout is returned together
        with the ReturnCode (true = OK). *)
    Definition checked_ticks (fuel : nat) (skip : bool) (s : scale) (b e step : xr) (l : layout)
      : outcome (layout * bool) :=
      if xlt max_ticks (xdiv d (xsub d e b) step) then Ret (l, false)
      else let* l' := tick_loop fuel skip s b e step 0 l in Ret (l', true).

    (** scale_layout_linear_interval, /repo/src/scale.cc:417-442. *)
    Definition layout_interval (fuel : nat) (s : scale) (step o_begin o_end : xr) (l : layout) :=
      checked_ticks fuel false s (xmax o_begin (scale_min s)) (xmin o_end (scale_max s)) step
        empty_layout.
    (** scale_layout_linear_alignat, /repo/src/scale.cc:444-473. *)
    Definition layout_alignat (fuel : nat) (s : scale) (step align : xr) (l : layout) :=
      let b := scale_min s in
      let b := xsub d b (xfmod b step) in
      let b := xsub d b (xfmod align step) in
      checked_ticks fuel true s b (scale_max s) step l.
    (** scale_layout_linear_align, /repo/src/scale.cc:475-502. *)
    Definition layout_align (fuel : nat) (s : scale) (step : xr) (l : layout) :=
      let b := scale_min s in
      let b := xsub d b (xfmod b step) in
      checked_ticks fuel true s b (scale_max s) step l.
    (** scale_layout_linear, /repo/src/scale.cc:504-524. *)
    Definition layout_linear (fuel : nat) (s : scale) (step : xr) (l : layout) :=
      checked_ticks fuel false s (scale_min s) (scale_max s) step l.

    (** The starting exponent, /repo/src/scale.cc:534 and :570. *)
    Definition start_exp (s : scale) : xr :=
      let mn := scale_min s in
      if xeq mn (Fin 0) then Fin 0 else xdiv d (xlog d mn) (xlog d (s_log_base s)).

    (** scale_layout_exponential, /repo/src/scale.cc:563-590. *)
    Fixpoint exp_loop (fuel : nat) (s : scale) (base ex : xr) (idx : nat) (l : layout)
      : outcome layout :=
      match fuel with
      | O => Diverge
      | S fuel' =>
          let v := xpow d base ex in
          let ex' := xadd d ex (Fin 1) in
          let* vp := scale_translate s v in
          if xlt v (scale_min s) then exp_loop fuel' s base ex' idx l
          else if xlt (xadd d (scale_max s) epsilon) v then Ret l
          else exp_loop fuel' s base ex' (S idx) (add_tick l vp (fmt idx (show v)))
      end.
    Definition layout_exponential (fuel : nat) (s : scale) (base : xr) (l : layout)
      : outcome (layout * bool) :=
      let* l' := exp_loop fuel s base (start_exp s) 0 l in Ret (l', true).

    (** scale_layout_exponential_steps, /repo/src/scale.cc:526-561; steps - 1 wraps in
        size_t. *)
    Definition pred64 (n : nat) : N :=
      match n with O => (2 ^ 64 - 1)%N | S k => N.of_nat k end.
    Fixpoint inner_steps (fuel : nat) (s : scale) (v vn : xr) (k : N) (m : N) (idx : nat)
        (l : layout) : outcome (layout * nat) :=
      match fuel with
      | O => Diverge
      | S fuel' =>
          if (k <? m)%N then
            let q := xdiv d (Fin (d (INR (N.to_nat k)))) (Fin (d (INR (N.to_nat m)))) in
            let vs := xadd d v (xmul d q (xsub d vn v)) in
            let* vp := scale_translate s vs in
            if xlt (xadd d (scale_max s) epsilon) vs then Ret (l, idx)
            else inner_steps fuel' s v vn (k + 1)%N m (S idx)
                   (add_tick l vp (fmt idx (show v)))
          else Ret (l, idx)
      end.
    Fixpoint exp_steps_loop (fuel : nat) (s : scale) (base ex : xr) (steps : nat) (idx : nat)
        (l : layout) : outcome layout :=
      match fuel with
      | O => Diverge
      | S fuel' =>
          let v := xpow d base ex in
          let ex' := xadd d ex (Fin 1) in
          let vn := xpow d base ex' in
          if xlt v (scale_min s) then exp_steps_loop fuel' s base ex' steps (S idx) l
          else if xlt (xadd d (scale_max s) epsilon) v then Ret l
          else let* (l', idx') := inner_steps fuel' s v vn 0%N (pred64 steps) idx l in
               exp_steps_loop fuel' s base ex' steps (S idx') l'
      end.
    Definition layout_exponential_steps (fuel : nat) (s : scale) (base : xr) (steps : nat)
        (l : layout) : outcome (layout * bool) :=
      let* l' := exp_steps_loop fuel s base (start_exp s) steps 0 l in Ret (l', true).

    (** scale_layout_subdivide, /repo/src/scale.cc:592-608: `(1.0f / divisions) * i` is
        float arithmetic. *)
    Definition subdivide_pos (n i : nat) : xr :=
      xmul f (xdiv f (Fin 1) (Fin (f (INR n)))) (Fin (f (INR i))).
    Definition layout_subdivide (s : scale) (n : nat) (l : layout) : outcome (layout * bool) :=
      Ret (fold_left (fun l i =>
             let o := subdivide_pos n i in
             add_tick l o (fmt i (show (scale_untranslate s o))))
           (seq 0 (S n)) empty_layout, true).

    (** scale_layout_categorical, /repo/src/scale.cc:610-625. *)
    Fixpoint categorical_loop (s : scale) (cs : list str) (i : nat) (l : layout) : outcome layout :=
      match cs with
      | [] => Ret l
      | c :: r => let* o := translate_categorical s i in
                  categorical_loop s r (S i) (add_tick l o (fmt i c))
      end.
    Definition layout_categorical (s : scale) (l : layout) : outcome (layout * bool) :=
      let* l' := categorical_loop s (s_categories s) 0 empty_layout in Ret (l', true).

    (** scale_layout_categorical_bounds, /repo/src/scale.cc:627-645. (For n = 0 the size_t
        n - 1 wraps, but the first call of scale_translate_categorical is undefined anyway.) *)
    Fixpoint bounds_loop (s : scale) (n : nat) (o : xr) (is : list nat) (l : layout)
      : outcome layout :=
      match is with
      | [] => Ret l
      | i :: r =>
          let* v := translate_categorical s i in
          bounds_loop s n o r
            (add_tick l (if (i =? n)%nat then xadd d v o else xsub d v o) [])
      end.
    Definition layout_categorical_bounds (s : scale) (l : layout) : outcome (layout * bool) :=
      let n := length (s_categories s) in
      let o := xdiv d (Fin (1 / 2))
                 (xadd d (Fin (d (INR (n - 1)))) (xmul d (s_padding s) (Fin 2))) in
      let* l' := bounds_loop s n o (seq 0 (S n)) empty_layout in Ret (l', true).

    (** Calling a ScaleLayoutFn (/repo/src/scale.h:56-60 returns void, so the ReturnCode of
        the bound function is dropped): the layout left behind. Arguments bound as double are
        converted to the parameter type at the call. *)
    Definition run_placement (fuel : nat) (p : placement) (s : scale) (l : layout)
      : outcome layout :=
      let* (l', _) :=
        match p with
        | PLinear step => layout_linear fuel s step l
        | PAlign step => layout_align fuel s step l
        | PAlignAt step align => layout_alignat fuel s step align l
        | PInterval step b e => layout_interval fuel s step b e l
        | PExp base => layout_exponential fuel s base l
        | PExpSteps base steps =>
            let* n := to_unsigned 64 steps in layout_exponential_steps fuel s base n l
        | PSubdivide n => let* k := to_unsigned 32 n in layout_subdivide s k l
        | PCategorical => layout_categorical s l
        | PCategoricalBounds => layout_categorical_bounds s l
        | PNone => Ret (l, true)
        end in
      Ret l'.

    (** The scale_configure_layout_* functions, /repo/src/scale.cc:654-869: the argument
        chain is read as exactly k numbers, in order. *)
    Definition args1 (a : list expr) : outcome xr :=
      match a with [x] => expr_to_float64 stod [x] | _ => Err end.
    Definition args2 (a : list expr) : outcome (xr * xr) :=
      match a with
      | [x; y] => let* u := expr_to_float64 stod [x; y] in
                  let* v := expr_to_float64 stod [y] in Ret (u, v)
      | _ => Err end.
    Definition args3 (a : list expr) : outcome (xr * xr * xr) :=
      match a with
      | [x; y; z] => let* u := expr_to_float64 stod [x; y; z] in
                     let* v := expr_to_float64 stod [y; z] in
                     let* w := expr_to_float64 stod [z] in Ret (u, v, w)
      | _ => Err end.

    (** scale_configure_layout, /repo/src/scale.cc:871-931. *)
    Definition configure_layout (e : list expr) : outcome placement :=
      match list_headed e (s_ "linear") with
      | Some a => let* s := args1 a in Ret (PLinear s)
      | None =>
      match list_headed e (s_ "linear-align") with
      | Some a => let* s := args1 a in Ret (PAlign s)
      | None =>
      match list_headed e (s_ "linear-alignat") with
      | Some a => let* (s, al) := args2 a in Ret (PAlignAt s al)
      | None =>
      match list_headed e (s_ "linear-interval") with
      | Some a => let* (s, b, en) := args3 a in Ret (PInterval s b en)
      | None =>
      match list_headed e (s_ "exponential") with
      | Some a => let* b := args1 a in Ret (PExp b)
      | None =>
      match list_headed e (s_ "exponential-steps") with
      | Some a => let* (b, st) := args2 a in Ret (PExpSteps b st)
      | None =>
      match list_headed e (s_ "subdivide") with
      | Some [] => Ret (PSubdivide (Fin 8))
      | Some a => let* n := args1 a in Ret (PSubdivide n)
      | None =>
      if is_val e (s_ "categorical") then Ret PCategorical
      else if is_val e (s_ "categorical-bounds") then Ret PCategoricalBounds
      else if is_val e (s_ "none") then Ret PNone
      else Err
      end end end end end end end.

    (** scale_configure_layout_defaults, /repo/src/scale.cc:933-990. The outer option is the
        null pointer, the inner one the empty std::function. *)
    Definition default_label (s : scale) : placement :=
      match s_kind s with
      | Categorical => PCategorical
      | Logarithmic => PExp (s_log_base s)
      | Linear => PSubdivide (Fin 10)
      end.
    Definition layout_defaults (s : scale) (lab tick : option (option placement))
      : option (option placement) * option (option placement) :=
      let lab' := match lab with Some None => Some (Some (default_label s)) | _ => lab end in
      let tick' :=
        match tick with
        | Some None =>
            match s_kind s with
            | Categorical => Some (Some PCategoricalBounds)
            | Logarithmic =>
                if xeq (s_log_base s) (Fin 10) then Some (Some (PExpSteps (Fin 10) (Fin 10)))
                else Some (Some (PExp (s_log_base s)))
            | Linear =>
                match lab' with
                | Some (Some p) => Some (Some p)
                | Some None => Some None
                | None => Some (Some (PSubdivide (Fin 10)))
                end
            end
        | _ => tick
        end in
      (lab', tick').
  End Columns.
End Scale.
