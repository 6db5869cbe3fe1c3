(** Model of /repo/src/format.cc: label formats. std::stod and strftime are parameters. *)
From Verif Require Import Base Num Dec Sexpr_Model Dispatch_Model Data_Model Color_Model.
From Coq Require Import Ascii.
Local Open Scope R_scope.

(** A formatter, format.h:22: index and value of the tick to its label. *)
Definition formatter := nat -> str -> outcome str.

(** std::fixed with std::setprecision(p): the nearest decimal with p digits after the point
    (ties to even, the exact binary value), at least one digit before the point. The sign of a
    negative zero is not modelled. *)
Fixpoint digits_ (p : nat) (n : Z) : str :=
  match p with O => [] | S q => digits_ q (n / 10)%Z ++ [dig (n mod 10)] end.
Definition fixed_real (p : nat) (x : R) : str :=
  let n := ZnearestE (Rabs x * 10 ^ p) in
  (if Rlt_dec x 0 then s_ "-" else []) ++ dec (n / 10 ^ Z.of_nat p) ++
  match p with O => [] | _ => s_ "." ++ digits_ p n end.
Definition fixed (p : nat) (a : xr) : str :=
  match a with Fin x => fixed_real p x | PInf => s_ "inf" | NInf => s_ "-inf" | NaN => s_ "nan" end.

(** format_superscript, format.cc:24-69: the characters in UTF-8; any character but a digit or
    a minus sign does not occur in std::to_string of an int (the replacement character). *)
Definition chr (n : nat) : ascii := ascii_of_nat n.
Definition superscript_char (c : ascii) : str :=
  match c with
  | "0" => [chr 226; chr 129; chr 176]
  | "1" => [chr 194; chr 185]
  | "2" => [chr 194; chr 178]
  | "3" => [chr 194; chr 179]
  | "4" => [chr 226; chr 129; chr 180]
  | "5" => [chr 226; chr 129; chr 181]
  | "6" => [chr 226; chr 129; chr 182]
  | "7" => [chr 226; chr 129; chr 183]
  | "8" => [chr 226; chr 129; chr 184]
  | "9" => [chr 226; chr 129; chr 185]
  | "-" => [chr 226; chr 129; chr 187]
  | _ => [chr 239; chr 191; chr 189]
  end%char.
Definition format_superscript (n : Z) : str := flat_map superscript_char (dec_int n).

Section Format.
  Variable d : R -> R.
  (** std::stod: None if it throws. *)
  Variable stod : str -> option xr.
  (** strftime after gmtime_r, into a buffer of 256 bytes, UnixTime.cc:57-67. *)
  Variable strftime : str -> Z -> str.
  Variable read_file : str -> option str.

  (** value_to_float, /repo/src/data.cc:103-109. *)
  Definition value_to_float (s : str) : xr := match stod s with Some v => v | None => Fin 0 end.
  Definition xlog10 (a : xr) : xr :=
    match a with
    | Fin x => if Rlt_dec 0 x then Fin (d (ln x / ln 10)) else if Rlt_dec x 0 then NaN else NInf
    | PInf => PInf
    | _ => NaN
    end.

  (** format_decimal_scientific, format.cc:71-92; the text between is a multiplication sign
      (UTF-8) between spaces, and 10. *)
  Definition times_ten : str := s_ " " ++ [chr 195; chr 151] ++ s_ " 10".
  Definition format_scientific (precision : nat) : formatter := fun _ vs =>
    let v := value_to_float vs in
    if xeq v (Fin 0) then Ret (s_ "0")
    else
      let s := if xle (Fin 0) v then Fin 1 else Fin (-1) in
      let* e := to_int (xlog10 (xdiv d v s)) in
      let x := xdiv d v (xpow d (Fin 10) (Fin (IZR e))) in
      Ret (fixed precision x ++ times_ten ++ format_superscript e).
  (** format_decimal_fixed, format.cc:118-124. *)
  Definition format_fixed (precision : nat) : formatter := fun _ v => Ret (fixed precision (value_to_float v)).
  (** format_datetime, format.cc:150-155: the microseconds are an unsigned 64 bit number. *)
  Definition format_datetime (fmt : str) : formatter := fun _ v =>
    let* us := to_unsigned 64 (xmul d (value_to_float v) (Fin 1000000)) in
    Ret (strftime fmt (Z.of_nat us / 1000000)%Z).
  (** format_base_fixed, format.cc:177-193; the precision has no effect. *)
  Definition format_base (base precision : nat) : formatter := fun _ vs =>
    let v := value_to_float vs in
    if xeq v (Fin 0) then Ret (s_ "0")
    else
      let* e := to_int (xdiv d (xlog d v) (xlog d (Fin (INR base)))) in
      Ret (dec (Z.of_nat base) ++ format_superscript e).
  (** format_integer, format_noop, format_custom: format.cc:228-233, 250-264. *)
  Definition format_integer : formatter := fun _ vs =>
    let* n := to_int (value_to_float vs) in Ret (dec_int n).
  Definition format_noop : formatter := fun _ v => Ret v.
  Definition format_custom (values : list str) : formatter := fun idx _ =>
    match values with
    | [] => Ret []
    | _ => match nth_error values (idx mod length values) with Some v => Ret v | None => Throw end
    end.

  (** precision = std::stod(expr_get_value(args[0])), an exception becomes an error. *)
  Definition number_arg (bits : Z) (e : expr) : outcome nat :=
    match stod (raw_value e) with Some v => to_unsigned bits v | None => Err end.
  (** format_configure_decimal_scientific, format_configure_decimal_fixed: format.cc:94-116,
      126-148. *)
  Definition precision_args (args : list expr) : outcome nat :=
    match args with [] => Ret 1%nat | [a] => number_arg 32 a | _ => Err end.
  (** format_configure_datetime, format.cc:157-175. *)
  Definition configure_datetime (args : list expr) : outcome formatter :=
    match args with
    | [] => Ret (format_datetime (s_ "%Y-%m-%d %H:%M:%S"))
    | [a] => Ret (format_datetime (raw_value a))
    | _ => Err
    end.
  (** format_configure_base_fixed, format.cc:195-226: the base is read as a double and
      converted to unsigned when it is passed on (in the order precision, base). *)
  Definition configure_base (args : list expr) : outcome formatter :=
    match args with
    | [b] =>
        match stod (raw_value b) with
        | None => Err
        | Some v => let* base := to_unsigned 32 v in Ret (format_base base 1)
        end
    | [b; p] =>
        let* precision := number_arg 64 p in
        match stod (raw_value b) with
        | None => Err
        | Some v => let* base := to_unsigned 32 v in Ret (format_base base precision)
        end
    | _ => Err
    end.
  (** format_configure_custom, format.cc:266-282. *)
  Definition configure_custom (args : list expr) : outcome formatter :=
    match args with
    | EList _ :: _ =>
        let '(values, o) := data_load_strings read_file args [] in
        let* _ := o in Ret (format_custom values)
    | _ => Ret (format_custom (map raw_value args))
    end.
  (** format_configure, format.cc:284-341. *)
  Definition is_word (e : list expr) (w : str) : bool :=
    match value_of e with Some v => str_eqb v w | None => false end.
  Definition format_configure (e : list expr) : outcome formatter :=
    let named (name : str) (conf : list expr -> outcome formatter) (other : outcome formatter) :=
      if is_word e name then conf []
      else match list_headed e name with Some args => conf args | None => other end in
    named (s_ "fixed") (fun a => let* p := precision_args a in Ret (format_fixed p))
      (named (s_ "scientific") (fun a => let* p := precision_args a in Ret (format_scientific p))
        (named (s_ "datetime") configure_datetime
          (named (s_ "base") configure_base
            (named (s_ "integer") (fun a => match a with [] => Ret format_integer | _ => Err end)
              (match list_headed e (s_ "custom") with Some args => configure_custom args | None => Err end))))).
End Format.
