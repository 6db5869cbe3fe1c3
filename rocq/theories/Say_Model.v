(** Model of the error messages: /repo/src/return_code.h, return_code.cc, the walks over commands
    (sexpr_util.cc) with their messages and traces, the readers whose messages name what would
    have been accepted, and what main (cli.cc) prints on stderr. *)
From Coq Require Import Reals ZArith.
From Verif Require Import Base Dec Num Sexpr_Model Dispatch_Model Data_Model Scale_Model Units_Model Color_Model Svg_Model Format_Model Cmd_Model Style_Model
  Plist_Model Eval_Model.

(** A ReturnCode that carries a result (OK, or ERROR with its message), return_code.h:28-41, and the
    other ways a function can end. The trace is [trace] below. *)
Inductive reply (A : Type) := Good (a : A) | Says (message : str) (trace : list expr) | Throws | Undefined | Loops.
Arguments Good {A} a. Arguments Says {A} message trace. Arguments Throws {A}. Arguments Undefined {A}. Arguments Loops {A}.
Definition rbind {A B} (r : reply A) (k : A -> reply B) : reply B :=
  match r with Good a => k a | Says m t => Says m t | Throws => Throws | Undefined => Undefined | Loops => Loops end.
(** The same without messages, as in the other models. *)
Definition erase {A} (r : reply A) : outcome A :=
  match r with Good a => Ret a | Says _ _ => Err | Throws => Throw | Undefined => UB | Loops => Diverge end.
(** A function modelled elsewhere without messages; [m] is its message, which is left open. *)
Definition open_message {A} (m : str) (o : outcome A) : reply A :=
  match o with Ret a => Good a | Err => Says m [] | Throw => Throws | UB => Undefined | Diverge => Loops end.
(** error(ERROR, m) and errorf, return_code.h:43-56: no trace yet. *)
Definition error_ {A} (m : str) : reply A := Says m [].

(** StringUtil::join, /repo/src/utils/stringutil.cc:174-201, of a vector, or of a set in its order. *)
Fixpoint join_ (l : list str) (sep : str) : str :=
  match l with [] => [] | [x] => x | x :: r => x ++ sep ++ join_ r sep end.
Definition quoted (v : str) : str := s_ "'" ++ v ++ s_ "'".
(** err_invalid_value, return_code.cc:21-35. *)
Definition err_invalid_value {A} (value : str) (expected : list str) : reply A :=
  error_ (s_ "invalid value: '" ++ value ++ s_ "'; expected one of: " ++ join_ (map quoted expected) (s_ ", ")).
(** err_invalid_nargs, return_code.cc:37-45. *)
Definition err_invalid_nargs {A} (nargs nargs_expect : nat) : reply A :=
  error_ (s_ "invalid number of arguments; got " ++ dec (Z.of_nat nargs) ++ s_ " but expected " ++ dec (Z.of_nat nargs_expect)).
(** error_print, return_code.cc:47-56, for an error. *)
Definition error_print (message : str) : str := s_ "ERROR: " ++ message ++ [c_nl].

(** expr_inspect of a pointer: the first node of the chain, or the null pointer (sexpr.cc:207-211). *)
Definition inspect_ptr (e : list expr) : str := match e with [] => s_ "<null>" | x :: _ => inspect x end.

Section Walk.
  Context {S : Type}.
  Variable fns : str -> option (list expr -> S -> S * reply unit).
  (** expr_walk_map, sexpr_util.cc:55-91, with the messages and the trace (a pointer to the node of
      the command; the node is kept here). *)
  Fixpoint walk_said (collect : bool) (l : list expr) (u t : list expr) (s : S) : S * reply (list expr) :=
    match l with
    | [] => (s, Good (u ++ t))
    | EList args :: rest =>
        match value_of args with
        | None => (s, error_ (s_ "expected a literal, but got: " ++ inspect_ptr args))
        | Some k =>
            match fns k with
            | None => if collect then walk_said collect rest (u ++ [EList args]) rest s
                      else (s, error_ (s_ "invalid command: '" ++ k ++ s_ "'"))
            | Some f =>
                match f (tl args) s with
                | (s', Good _) => walk_said collect rest u t s'
                | (s', Says m tr) => (s', Says m (tr ++ [EList args]))
                | (s', Throws) => (s', Throws) | (s', Undefined) => (s', Undefined) | (s', Loops) => (s', Loops)
                end
            end
        end
    | x :: _ => (s, error_ (s_ "expected a list, but got: " ++ inspect x))
    end.
  Definition expr_walk_map_said (collect : bool) (l : list expr) (s : S) : S * reply (list expr) := walk_said collect l [] [] s.
  (** expr_walk_map_wrapped, sexpr_util.cc:44-53. *)
  Definition expr_walk_map_wrapped_said (strict : bool) (l : list expr) (s : S) :=
    match l with
    | EList items :: _ => expr_walk_map_said (negb strict) items s
    | _ => (s, error_ (s_ "expected a list"))
    end.
End Walk.

(** The same for a table of commands that change a state, as Cmd_Model.run. *)
Section Table.
  Context {S : Type}.
  Variable fns : list (str * (list expr -> S -> reply S)).
  Fixpoint walkx_said (collect : bool) (l : list expr) (u t : list expr) (s : S) : reply (S * list expr) :=
    match l with
    | [] => Good (s, u ++ t)
    | EList args :: rest =>
        match value_of args with
        | None => error_ (s_ "expected a literal, but got: " ++ inspect_ptr args)
        | Some k =>
            match assoc k fns with
            | None => if collect then walkx_said collect rest (u ++ [EList args]) rest s
                      else error_ (s_ "invalid command: '" ++ k ++ s_ "'")
            | Some f => match f (tl args) s with
                        | Good s' => walkx_said collect rest u t s'
                        | Says m tr => Says m (tr ++ [EList args])
                        | Throws => Throws | Undefined => Undefined | Loops => Loops
                        end
            end
        end
    | x :: _ => error_ (s_ "expected a list, but got: " ++ inspect x)
    end.
  Definition run_said (l : list expr) (s : S) : reply S := rbind (walkx_said false l [] [] s) (fun r => Good (fst r)).
  Definition run_collect_said (l : list expr) (s : S) : reply (S * list expr) := walkx_said true l [] [] s.
End Table.

(** expr_to_string, sexpr_conv.cc:25-34. *)
Definition expr_to_string_said (e : list expr) : reply str :=
  match value_of e with Some v => Good v | None => error_ (s_ "expected value") end.
(** expr_to_switch, sexpr_conv.cc:119-136. *)
Definition expr_to_switch_said (e : list expr) : reply bool :=
  let m := s_ "argument error; expected 'on' or 'off', got: " ++ inspect_ptr e in
  match value_of e with
  | Some v => if str_eqb v (s_ "on") then Good true else if str_eqb v (s_ "off") then Good false else error_ m
  | None => error_ m
  end.

Section Readers.
  Variable d : R -> R.
  Variable f32 : R -> R.
  Variable stod : str -> option (xr * nat).

  (** expr_to_float64, sexpr_conv.cc:64-78. *)
  Definition expr_to_float64_said (e : list expr) : reply xr :=
    match value_of e with
    | Some v => match stod v with Some (q, _) => Good q | None => error_ (s_ "invalid number: " ++ v) end
    | None => error_ (s_ "expected value")
    end.
  (** expr_to_float64_opt_pair, sexpr_conv.cc:92-111. *)
  Definition expr_to_float64_opt_pair_said (e : list expr) (v1 v2 : option xr) : (option xr * option xr) * reply unit :=
    match e with
    | [a; b] =>
        match expr_to_float64_said [a; b] with
        | Good x => match expr_to_float64_said [b] with
                    | Good y => ((Some x, Some y), Good tt)
                    | Says m t => ((Some x, v2), Says m t)
                    | Throws => ((Some x, v2), Throws) | Undefined => ((Some x, v2), Undefined) | Loops => ((Some x, v2), Loops)
                    end
        | Says m t => ((v1, v2), Says m t)
        | Throws => ((v1, v2), Throws) | Undefined => ((v1, v2), Undefined) | Loops => ((v1, v2), Loops)
        end
    | _ => ((v1, v2), err_invalid_nargs (length e) 2)
    end.

  (** parse_measure, /repo/src/graphics/measure.cc:65-116. *)
  Definition parse_measure_said (s : str) : reply measure :=
    match stod s with
    | None => error_ (s_ "invalid number: '" ++ s ++ s_ "'")
    | Some (v, pos) =>
        if (pos =? length s)%nat then Good (from_user v) else
        let u := skipn pos s in
        if str_eqb u (s_ "mm") then Good (from_mm v)
        else if str_eqb u (s_ "px") then Good (from_px v)
        else if str_eqb u (s_ "pt") then Good (from_pt v)
        else if str_eqb u (s_ "em") || str_eqb u (s_ "rem") then Good (from_em v)
        else if str_eqb u (s_ "%") then Good (from_rel (xdiv d v (Fin 100)))
        else if str_eqb u (s_ "rel") then Good (from_rel v)
        else error_ (s_ "invalid unit: '" ++ u ++ s_ "', expected one of 'mm', 'px', 'pt', 'em', 'rem', 'rel' or '%'")
    end.
  (** measure_read and measure_readn, /repo/src/typographic_reader.cc:24-60. *)
  Definition measure_read_said (e : list expr) : reply measure :=
    match value_of e with
    | None => error_ (s_ "argument error; expected a value, got: " ++ inspect_ptr e)
    | Some v => parse_measure_said v
    end.
  Definition measure_readn_said (l : layer) (e : list expr) : reply measure :=
    rbind (measure_read_said e) (fun m =>
      Good (measure_normalize d (mk_conv (l_dpi l) (from_unit (layer_get_font_size d l)) (from_unit (Fin 0))) m)).

  (** layer_resize(layer, size), /repo/src/layer.cc:67-101. [sizes] is the order in which the
      unordered_map is listed (:90-92). *)
  Definition layer_resize_paper_said (sizes : list str) (l : layer) (name : str) : layer * reply unit :=
    match assoc name paper_sizes with
    | None => (l, err_invalid_value name sizes)
    | Some (w, h) => (with_size l (from_mm w) (from_mm h), Good tt)
    end.
  (** layer_resize_cmd, layer.cc:103-130. *)
  Definition layer_resize_cmd_said (sizes : list str) (l : layer) (args : list expr) : layer * reply unit :=
    match args with
    | [a] => layer_resize_paper_said sizes l (node_text a)
    | [a; b] =>
        match rbind (measure_read_said [a; b]) (fun w => rbind (measure_read_said [b]) (fun h => Good (w, h))) with
        | Good (w, h) => (with_size l w h, Good tt)
        | Says m t => (l, Says m t)
        | Throws => (l, Throws) | Undefined => (l, Undefined) | Loops => (l, Loops)
        end
    | _ => (l, err_invalid_nargs (length args) 2)
    end.
  (** layer_set_dpi_cmd, layer.cc:184-199. *)
  Definition layer_set_dpi_cmd_said (l : layer) (args : list expr) : layer * reply unit :=
    match args with
    | [a] => match expr_to_float64_said [a] with
             | Good v => (mk_layer (l_width l) (l_height l) v (l_font_size l), Good tt)
             | Says m t => (l, Says m t)
             | Throws => (l, Throws) | Undefined => (l, Undefined) | Loops => (l, Loops)
             end
    | _ => (l, err_invalid_nargs (length args) 1)
    end.
  (** layer_set_font_size_cmd, layer.cc:307-322. *)
  Definition layer_set_font_size_cmd_said (l : layer) (args : list expr) : layer * reply unit :=
    match args with
    | [a] => match measure_read_said [a] with
             | Good m => (mk_layer (l_width l) (l_height l) (l_dpi l) m, Good tt)
             | Says m t => (l, Says m t)
             | Throws => (l, Throws) | Undefined => (l, Undefined) | Loops => (l, Loops)
             end
    | _ => (l, err_invalid_nargs (length args) 1)
    end.

  (** measure_map_read and measure_map_read_linear, typographic_reader.cc:79-127. *)
  Definition measure_map_read_said (l : layer) (e : list expr) : reply (str -> outcome measure) :=
    match e with
    | EList items :: _ =>
        let bad := error_ (s_ "invalid value to <measure-map>; got '" ++ inspect_ptr items ++ s_ "', but expected one of: " ++ [c_nl] ++ s_ "  - linear" ++ [c_nl]) in
        match value_of items with
        | Some k =>
            if str_eqb k (s_ "linear") then
              match tl items with
              | [a; b] => rbind (measure_readn_said l [a; b]) (fun mn => rbind (measure_readn_said l [b]) (fun mx => Good (measure_map_linear d stod mn mx)))
              | r => error_ (s_ "invalid number of arguments for 'linear'; expected two, got: " ++ dec (Z.of_nat (length r)))
              end
            else bad
        | None => bad
        end
    | _ => error_ (s_ "invalid argument to <measure-map>; expected a list, but got: '" ++ inspect_ptr e ++ s_ "'")
    end.

  Variable read_file : str -> option str.
  (** What data_load_strings says when it fails (/repo/src/data.cc:225-300): left open. *)
  Variable strings_said : list expr -> str.
  Definition kinds : list str := map s_ ["linear"; "log"; "logarithmic"; "invert"; "inverted"; "categorical"]%string.
  (** scale_configure_kind, /repo/src/scale.cc:355-415. *)
  Fixpoint configure_kind_said (e : list expr) (s : scale) : scale * reply unit :=
    match e with
    | [] => (s, Good tt)
    | _ :: rest =>
        if is_val e (s_ "linear") then configure_kind_said rest (set_kind s Linear)
        else if is_val e (s_ "log") || is_val e (s_ "logarithmic") then configure_kind_said rest (set_kind s Logarithmic)
        else
        let log_args := match list_headed e (s_ "log") with Some a => Some a | None => list_headed e (s_ "logarithmic") end in
        match log_args with
        | Some args =>
            let s1 := set_kind s Logarithmic in
            match expr_to_float64_said args with
            | Good b => configure_kind_said rest (set_log_base s1 b)
            | Says m t => (s1, Says m t)
            | Throws => (s1, Throws) | Undefined => (s1, Undefined) | Loops => (s1, Loops)
            end
        | None =>
        if is_val e (s_ "invert") || is_val e (s_ "inverted") then configure_kind_said rest (set_inverted s)
        else if is_val e (s_ "categorical") then configure_kind_said rest (set_categorical s)
        else
        match list_headed e (s_ "categorical") with
        | Some args =>
            let s1 := set_categorical s in
            let '(c, o) := data_load_strings read_file args (s_categories s1) in
            let s2 := set_categories s1 c in
            match open_message (strings_said args) o with
            | Good _ => configure_kind_said rest (index_categories s2)
            | Says m t => (s2, Says m t)
            | Throws => (s2, Throws) | Undefined => (s2, Undefined) | Loops => (s2, Loops)
            end
        | None => (s, err_invalid_value (inspect_ptr e) kinds)
        end
        end
    end.

  (** The scale_configure_layout_* functions, scale.cc:654-869. *)
  Definition nargs_said {A} (what expected : str) (a : list expr) : reply A :=
    error_ (s_ "invalid number of arguments for '" ++ what ++ s_ "'; expected " ++ expected ++ s_ ", got: " ++ dec (Z.of_nat (length a))).
  Definition args1_said (what : str) (a : list expr) : reply xr :=
    match a with [x] => expr_to_float64_said [x] | _ => nargs_said what (s_ "one") a end.
  Definition args2_said (what : str) (a : list expr) : reply (xr * xr) :=
    match a with
    | [x; y] => rbind (expr_to_float64_said [x; y]) (fun u => rbind (expr_to_float64_said [y]) (fun v => Good (u, v)))
    | _ => nargs_said what (s_ "two") a end.
  Definition args3_said (what : str) (a : list expr) : reply (xr * xr * xr) :=
    match a with
    | [x; y; z] => rbind (expr_to_float64_said [x; y; z]) (fun u => rbind (expr_to_float64_said [y; z]) (fun v =>
                     rbind (expr_to_float64_said [z]) (fun w => Good (u, v, w))))
    | _ => nargs_said what (s_ "three") a end.
  (** One line of a list of values in a message. *)
  Definition bullet (v : str) : str := s_ "  - " ++ v ++ [c_nl].
  Definition layouts : list str := map s_ ["linear"; "linear-align"; "linear-alignat"; "linear-interval"; "exponential"; "exponential-steps"; "subdivide";
    "categorical"; "categorical-bounds"; "none"]%string.
  (** scale_configure_layout, scale.cc:871-931. *)
  Definition configure_layout_said (e : list expr) : reply placement :=
    match list_headed e (s_ "linear") with
    | Some a => rbind (args1_said (s_ "linear") a) (fun s => Good (PLinear s))
    | None =>
    match list_headed e (s_ "linear-align") with
    | Some a => rbind (args1_said (s_ "linear-align") a) (fun s => Good (PAlign s))
    | None =>
    match list_headed e (s_ "linear-alignat") with
    | Some a => rbind (args2_said (s_ "linear-alignat") a) (fun '(s, al) => Good (PAlignAt s al))
    | None =>
    match list_headed e (s_ "linear-interval") with
    | Some a => rbind (args3_said (s_ "linear-interval") a) (fun '(s, b, en) => Good (PInterval s b en))
    | None =>
    match list_headed e (s_ "exponential") with
    | Some a => rbind (args1_said (s_ "exponential") a) (fun b => Good (PExp b))
    | None =>
    match list_headed e (s_ "exponential-steps") with
    | Some a => rbind (args2_said (s_ "exponential-steps") a) (fun '(b, st) => Good (PExpSteps b st))
    | None =>
    match list_headed e (s_ "subdivide") with
    | Some [] => Good (PSubdivide (Fin 8))
    | Some [x] => rbind (expr_to_float64_said [x]) (fun n => Good (PSubdivide n))
    | Some _ => error_ (s_ "invalid number of arguments for 'subdivide'; expected one or two")
    | None =>
    if is_val e (s_ "categorical") then Good PCategorical
    else if is_val e (s_ "categorical-bounds") then Good PCategoricalBounds
    else if is_val e (s_ "none") then Good PNone
    else error_ (s_ "invalid argument: '" ++ inspect_ptr e ++ s_ "'; expected one of: " ++ [c_nl] ++ concat (map bullet layouts))
    end end end end end end end.

  (** color_palette_default, /repo/src/color_palette.cc:56-83; [names] is the order in which the
      unordered_map is listed. *)
  Definition color_palette_default_said (names : list str) (name : str) : reply (list color) :=
    match assoc name palettes with
    | Some l => open_message [] (parse_all f32 l)
    | None => error_ (s_ "invalid value to <color-palette-name>; got '" ++ name ++ s_ "' but expected one of:" ++ [c_nl] ++ concat (map bullet names))
    end.

  (** color_map_read, /repo/src/color_reader.cc:138-220; what a colour that cannot be read says is
      left open. *)
  Variable stops_said : list expr -> str.
  Definition map_stops_said (palette : list color) (args : list expr) : reply (list (xr * color)) :=
    if Nat.odd (length args) then error_ (s_ "invalid argument to 'gradient'; not a list of pairs: '" ++ inspect_ptr args ++ s_ "'")
    else open_message (stops_said args) (read_stops f32 stod palette args).
  Definition color_map_read_said (palette : list color) (e : list expr) : reply (map_kind * list (xr * color)) :=
    let bad := error_ (s_ "invalid value to <color-map>; got '" ++ inspect_ptr e ++ s_ "', but expected one of: " ++ [c_nl] ++ concat (map bullet [s_ "steps"; s_ "gradient"])) in
    match e with
    | EList args :: _ =>
        if head_is (s_ "gradient") args then rbind (map_stops_said palette (tl args)) (fun l => Good (Gradient, l))
        else if head_is (s_ "steps") args then rbind (map_stops_said palette (tl args)) (fun l => Good (Steps, l))
        else bad
    | _ => bad
    end.

  (** data_load_points2, /repo/src/data.cc:478-533; what the two lists and the GeoJSON reader say is
      left open. *)
  Variable list_said : list expr -> str.
  Variable geojson_said : str -> str.
  Section Points.
    Context {num : Type}.
    Variable load_list : list expr -> @databuf num -> @databuf num * outcome unit.
    Variable load_points : str -> @databuf num -> @databuf num -> (@databuf num * @databuf num) * outcome unit.
    Definition data_load_points2_said (path format : str) (ref_x ref_y : list expr) (bx by_ : @databuf num)
      : (@databuf num * @databuf num) * reply unit :=
      let is_list e := match e with EList _ :: _ => true | _ => false end in
      let '(bx1, o1) := if is_list ref_x then load_list ref_x bx else (bx, Ret tt) in
      match open_message (list_said ref_x) o1 with
      | Good _ =>
          let '(by1, o2) := if is_list ref_y then load_list ref_y by_ else (by_, Ret tt) in
          match open_message (list_said ref_y) o2 with
          | Good _ =>
              match path with
              | [] => ((bx1, by1), Good tt)
              | _ =>
                  let f := detect_format path format in
                  match f with
                  | [] => ((bx1, by1), error_ (s_ "unable to detect the encoding of " ++ path ++ [c_nl] ++ s_ "Please specify the encoding using data-type: [csv|geojson]"))
                  | _ => if str_eqb f (s_ "geojson") then let '(b, o) := load_points path bx1 by1 in (b, open_message (geojson_said path) o)
                         else ((bx1, by1), err_invalid_value f [s_ "csv"; s_ "geojson"])
                  end
              end
          | r => ((bx1, by1), r)
          end
      | r => ((bx1, by_), r)
      end.
  End Points.
End Readers.

(** format_configure, /repo/src/format.cc:94-341; a number that cannot be read, or too many
    arguments, are an ERROR without a message (:108,111,140,143,170,207,214). *)
Section Formats.
  Variable d : R -> R.
  Variable stod1 : str -> option xr.
  Variable strftime : str -> Z -> str.
  Variable read_file : str -> option str.
  Variable strings_said : list expr -> str.
  Definition formats : list str := map s_ ["fixed"; "scientific"; "datetime"; "base"; "integer"; "custom"]%string.
  Definition format_configure_said (e : list expr) : reply formatter :=
    let named (name : str) (conf : list expr -> reply formatter) (other : reply formatter) :=
      if Format_Model.is_word e name then conf []
      else match list_headed e name with Some args => conf args | None => other end in
    named (s_ "fixed") (fun a => open_message [] (let* p := precision_args stod1 a in Ret (format_fixed stod1 p)))
      (named (s_ "scientific") (fun a => open_message [] (let* p := precision_args stod1 a in Ret (format_scientific d stod1 p)))
        (named (s_ "datetime") (fun a => open_message [] (configure_datetime d stod1 strftime a))
          (named (s_ "base") (fun a => match a with
                                       | [_] | [_; _] => open_message [] (configure_base d stod1 a)
                                       | _ => error_ (s_ "invalid number of arguments for 'base'; expected one or two, but got: " ++ dec (Z.of_nat (length a)))
                                       end)
            (named (s_ "integer") (fun a => match a with [] => Good (format_integer stod1)
                                            | _ => error_ (s_ "invalid number of arguments for 'integer'; expected zero, but got: " ++ dec (Z.of_nat (length a))) end)
              (match list_headed e (s_ "custom") with
               | Some args => open_message (strings_said args) (configure_custom read_file args)
               | None => error_ (s_ "invalid value '" ++ inspect_ptr e ++ s_ "', expected one of: " ++ [c_nl] ++ concat (map bullet formats))
               end))))).
End Formats.
