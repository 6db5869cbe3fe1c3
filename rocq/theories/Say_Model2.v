(** Messages, continued: eval (eval.cc) and what main (cli.cc) prints on stderr. *)
From Coq Require Import Reals ZArith.
From Verif Require Import Base Dec Num Sexpr_Model Dispatch_Model Data_Model Scale_Model Units_Model Color_Model Geo_Model Svg_Model Format_Model Cmd_Model Style_Model
  Plist_Model PlistSay_Model Plot_Model Eval_Model Say_Model.

(** The messages that are left open: of the fonts, of the modules, of the
    export, of the C library (strerror, getopt_long's own line, which comes first) and of exceptions;
    and the order of the table of paper sizes. *)
Record unsaid := mk_unsaid { u_font : list expr -> str; u_fonts : str; u_module : str -> list expr -> str; u_export : str;
  u_strerror : str -> str; u_getopt : str; u_what : str; u_sizes : list str }.

Section Eval.
  Variable W : world.
  Variable U : unsaid.
  Notation d := (w_d W).

  (** layer_set_font_cmd, /repo/src/layer.cc:261-277, with expr_call_string, sexpr_util.cc:161-169. *)
  Definition set_font_cmd_said (e : list expr) (old : font) : reply font :=
    match e with
    | [a] => match value_of [a] with
             | None => error_ (s_ "Expected a value")
             | Some _ => open_message (u_font U e) (set_font_cmd W e old)
             end
    | _ => err_invalid_nargs (length e) 1
    end.
  Definition ended_said {A} (r : A * reply unit) : reply A := let '(a, o) := r in rbind o (fun _ => Good a).
  (** eval(ctx, expr), /repo/src/eval.cc:51-93. *)
  Definition eval_table_said : list (str * (list expr -> env * str -> reply (env * str))) :=
    let lay (c : layer -> list expr -> layer * reply unit) e (s : env * str) :=
      rbind (ended_said (c (e_layer (fst s)) e)) (fun v => Good (with_layer v (fst s), snd s)) in
    [(s_ "class", fun e s => rbind (expr_to_string_said e) (fun v => Good (fst s, v)));
     (s_ "size", lay (layer_resize_cmd_said d (w_stod W) (u_sizes U)));
     (s_ "dpi", lay (layer_set_dpi_cmd_said (w_stod W)));
     (s_ "font", fun e s => rbind (set_font_cmd_said e (e_font (fst s))) (fun v => Good (with_font v (fst s), snd s)));
     (s_ "font-size", lay (layer_set_font_size_cmd_said d (w_stod W)))].
  Definition no_module : str :=
    s_ "Please specify a module:" ++ [c_nl; c_nl] ++ s_ "    (class <module>)" ++ [c_nl; c_nl] ++ s_ "List of available modules:" ++ [c_nl; c_nl] ++ s_ "    - plot" ++ [c_nl].
  Definition eval_exprs_said (E : env) (e : list expr) : reply (env * list draw_command) :=
    rbind (run_collect_said eval_table_said e (E, s_ "plot")) (fun '((E, name), args) =>
    match name with
    | [] => error_ no_module
    | _ => match assoc name (modules W) with
           | None => error_ (s_ "Invalid module '" ++ name ++ s_ "'")
           | Some m => match args with
                       | [] => Undefined
                       | _ => rbind (open_message (u_module U name args) (m E args)) (fun l => Good (E, l))
                       end
           end
    end).
  (** eval(ctx, input), eval.cc:95-106. *)
  Definition eval_text_said (E : env) (input : str) : reply (env * list draw_command) :=
    let '(parsed, message) := plist_parse_said input in
    rbind (open_message message parsed) (eval_exprs_said E).

  (** crash(), /repo/src/cli.cc:36-52. *)
  Definition crash_text : str :=
    s_ "ERROR: clip crashed; sorry :(" ++ [c_nl] ++ s_ "ERROR: Please report the bug at https://github.com/asmuth/clip/issues" ++ [c_nl] ++ u_what U.
  Definition version_text (version : str) : str :=
    s_ "clip " ++ version ++ [c_nl] ++ s_ "Part of the clip project (https://clip.org)" ++ [c_nl] ++
    s_ "Copyright (c) 2019, Paul Asmuth, Laura Schlimmer." ++ [c_nl] ++ s_ "All rights reserved." ++ [c_nl; c_nl].
  Definition usage_text : str :=
    concat (map (fun l => s_ l ++ [c_nl])
      ["Usage: clip [OPTIONS] <file>"; ""; "Export:"; "  -e, --export <path>          Export the image";
       "  -f, --export-format <fmt>    Export format. If no format is given, it is"; "                               inferred from the export filename."; "";
       "Fonts:"; "  --font-load <path>           Add a font file to the default font list"; "";
       "Other:"; "  -d, --debug                  Run in debug mode"; "  -h, --help                   Display this help text and exit";
       "  -v, --version                Display the version of this binary and exit"; ""; "Examples:"; "  $ clip -e my_chart.svg my_chart.clp"]%string).
  Definition format_text : str := error_print (s_ "invalid output format (--format). valid values are 'svg' and 'png'").
  (** read_file, /repo/src/utils/fileutil.cc:212-230, and cli.cc:153-162. *)
  Definition unread_text (path : str) : str :=
    s_ "ERROR: unable to read input file (" ++ path ++ s_ "): error while reading file: '" ++ path ++ s_ "': " ++ u_strerror U path ++ [c_nl].

  (** How a step ends: with a result, or the program ends with a failure and this text on stderr. *)
  Definition step {A} (r : reply A) (k : A -> outcome (result * str)) : outcome (result * str) :=
    match r with
    | Good a => k a
    | Says m _ => Ret (failure, error_print m)
    | Throws => Ret (failure, crash_text)
    | Undefined => UB
    | Loops => Diverge
    end.
  (** main, cli.cc:54-199: what is left behind, and the text on stderr. *)
  Definition cli_run_said (version : str) (defaults : outcome font) (stdin : str)
      (o : os) (f : flags) (args : list str) : outcome (result * str) :=
    if fl_version f then Ret (mk_result 0 [] None, version_text version)
    else match fl_help f, args with
    | false, [path] =>
        match choose_format f with
        | Ret fmt =>
            step (open_message (u_fonts U) (layer_create W defaults (fl_fonts f))) (fun E =>
            match (if str_eqb path (s_ "-") then Some stdin else w_read_file W path) with
            | None => Ret (failure, unread_text path)
            | Some input =>
                step (eval_text_said E input) (fun '(E, l) =>
                match fl_export f with
                | [] => Ret (mk_result 0 [] None, [])
                | target =>
                    step (open_message (u_export U) (match fmt with SVG => svg_of W version E l | PNG => Ret [] end)) (fun text =>
                    if str_eqb target (s_ "-") then Ret (mk_result 0 (firstn (os_stdout o (length text)) text) None, [])
                    else let r := file_write o target text in
                         Ret (r, if Nat.eqb (exit_code r) 0 then [] else crash_text))
                end)
            end)
        | _ => Ret (failure, format_text)
        end
    | _, _ => Ret (mk_result 0 [] None, usage_text)
    end.
  Definition main_said (version : str) (defaults : outcome font) (stdin : str)
      (o : os) (opts : list opt) (args : list str) : outcome (result * str) :=
    match flags_parse opts flags0 with
    | Ret f => cli_run_said version defaults stdin o f args
    | _ => Ret (failure, u_getopt U ++ error_print (s_ "invalid option"))
    end.
End Eval.

(** expr_tov, /repo/src/sexpr_conv_impl.h:64-85: the message is that of the element. *)
Fixpoint tov_said {T} (conv : list expr -> reply T) (e : list expr) (acc : list T) : reply (list T) :=
  match e with
  | [] => Good acc
  | _ :: rest => rbind (conv e) (fun v => tov_said conv rest (acc ++ [v]))
  end.
Section Strokes.
  Variable W : world.
  Variable E : env.
  (** measure_readn, read as a double. *)
  Definition rd_measuren_said (e : list expr) : reply xr :=
    rbind (measure_readn_said (w_d W) (w_stod W) (e_layer E) e) (fun m => Good (m_value m)).
  (** stroke_style_read_dash, /repo/src/style_reader.cc:27-42. *)
  Definition stroke_style_read_dash_said (e : list expr) (s : stroke_style) : reply stroke_style :=
    let s1 := ss_with_pattern [Cmd_Model.pt W E 2; Cmd_Model.pt W E 2] (ss_with_dashed true s) in
    run_said [(s_ "pattern", fun e s => rbind (tov_said rd_measuren_said e []) (fun v => Good (ss_with_pattern v s)));
              (s_ "offset", fun e s => rbind (rd_measuren_said e) (fun v => Good (ss_with_offset v s)))] e s1.
  (** stroke_style_read, style_reader.cc:44-75. *)
  Definition stroke_style_read_said (e : list expr) (s : stroke_style) : reply stroke_style :=
    if is_word e "none" || is_list_of e "none" then Good (ss_with_width (Fin 0) s)
    else if is_word e "solid" || is_list_of e "solid" then Good (ss_with_dashed false s)
    else if is_word e "dash" || is_word e "dashed" then stroke_style_read_dash_said [] s
    else match list_of e "dash" with
         | Some a => stroke_style_read_dash_said a s
         | None => match list_of e "dashed" with
                   | Some a => stroke_style_read_dash_said a s
                   | None => error_ (s_ "invalid <stroke-style>; expected one of (none, solid), but got: '" ++ inspect_ptr e ++ s_ "'")
                   end
         end.
End Strokes.
