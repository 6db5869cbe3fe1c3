(** Model of StringUtil::formatNumberMetric, /repo/src/utils/stringutil_impl.h:37-88. *)
From Coq Require Import Reals.
From Verif Require Import Base Num Dec Format_Model.
Local Open Scope R_scope.

(** std::string(buf, len) after snprintf into char buf[128], :39 and :87: snprintf writes at most 127
    characters and a NUL and returns the full length; reading more than the 128 bytes of the buffer is
    undefined. *)
Definition from_buffer (printed : str) : outcome str :=
  if (length printed <=? 127)%nat then Ret printed
  else if (length printed =? 128)%nat then Ret (firstn 127 printed ++ [zero]) else UB.

Section Metric.
  Variable d : R -> R.
  (** A double constant of the source. *)
  Definition c (v : R) : xr := Fin (d v).
  Definition xabs (a : xr) : xr := match a with Fin x => Fin (Rabs x) | NInf => PInf | _ => a end.
  (** :40-84, for a double. *)
  Definition metric_text (value : xr) : str :=
    let a := xabs value in
    if xeq a (Fin 0) then s_ "0"
    else if xlt a (c (/ 10 ^ 9)) then fixed 1 (xmul d value (c (10 ^ 12))) ++ s_ "p"
    else if xlt a (c (/ 10 ^ 6)) then fixed 1 (xmul d value (c (10 ^ 9))) ++ s_ "n"
    else if xlt a (c (/ 10 ^ 3)) then fixed 1 (xmul d value (c (10 ^ 6))) ++ s_ "μ"
    else if xlt a (c (/ 10)) then fixed 1 (xmul d value (c (10 ^ 3))) ++ s_ "m"
    else if xlt a (c 10) then fixed 2 value
    else if xlt a (c (10 ^ 3)) then fixed 1 value
    else if xlt a (c (10 ^ 6)) then fixed 1 (xdiv d value (c (10 ^ 3))) ++ s_ "K"
    else if xlt a (c (10 ^ 9)) then fixed 1 (xdiv d value (c (10 ^ 6))) ++ s_ "M"
    else if xlt a (c (10 ^ 12)) then fixed 1 (xdiv d value (c (10 ^ 9))) ++ s_ "G"
    else fixed 1 (xdiv d value (c (10 ^ 12))) ++ s_ "T".
  Definition format_number_metric (value : xr) : outcome str := from_buffer (metric_text value).
End Metric.
