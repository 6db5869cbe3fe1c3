(** The numbers of the code: IEEE 754 values over the reals.

    A [double] (or [float]) is a real, an infinity or a NaN. Every arithmetic operation
    computes the real result and then applies a rounding function, a parameter of the
    model: the identity gives exact real arithmetic, [rnd64] and [rnd32] below give
    round-to-nearest-even binary64 and binary32. Simplifications: one zero (no sign of
    zero), and no overflow (the roundings have no largest number). *)
From Verif Require Import Base.
From Coq Require Export Reals Lra.
From Flocq Require Export Core.
Local Open Scope R_scope.

Inductive xr := Fin (r : R) | PInf | NInf | NaN.

(** Comparisons: false as soon as a NaN is involved. *)
Definition xlt (a b : xr) : bool :=
  match a, b with
  | Fin x, Fin y => if Rlt_dec x y then true else false
  | NInf, Fin _ | NInf, PInf | Fin _, PInf => true
  | _, _ => false
  end.
Definition xle (a b : xr) : bool :=
  match a, b with
  | Fin x, Fin y => if Rle_dec x y then true else false
  | NInf, Fin _ | NInf, PInf | NInf, NInf | Fin _, PInf | PInf, PInf => true
  | _, _ => false
  end.
Definition xeq (a b : xr) : bool :=
  match a, b with
  | Fin x, Fin y => if Req_EM_T x y then true else false
  | PInf, PInf | NInf, NInf => true
  | _, _ => false
  end.

Definition xneg (a : xr) : xr :=
  match a with Fin x => Fin (- x) | PInf => NInf | NInf => PInf | NaN => NaN end.

(** The infinity with the sign of [x] (NaN for zero): what x / 0 and x * inf give. *)
Definition xsign_inf (x : R) : xr :=
  if Rlt_dec 0 x then PInf else if Rlt_dec x 0 then NInf else NaN.

Section Ops.
  Variable d : R -> R.

  (** Rounding to the type's format, as in an assignment to a narrower variable. *)
  Definition xround (a : xr) : xr := match a with Fin x => Fin (d x) | _ => a end.

  Definition xadd (a b : xr) : xr :=
    match a, b with
    | Fin x, Fin y => Fin (d (x + y))
    | NaN, _ | _, NaN => NaN
    | PInf, NInf | NInf, PInf => NaN
    | PInf, _ | _, PInf => PInf
    | NInf, _ | _, NInf => NInf
    end.
  Definition xsub (a b : xr) : xr := xadd a (xneg b).
  Definition xmul (a b : xr) : xr :=
    match a, b with
    | Fin x, Fin y => Fin (d (x * y))
    | NaN, _ | _, NaN => NaN
    | Fin x, PInf | PInf, Fin x => xsign_inf x
    | Fin x, NInf | NInf, Fin x => xneg (xsign_inf x)
    | PInf, PInf | NInf, NInf => PInf
    | PInf, NInf | NInf, PInf => NInf
    end.
  Definition xdiv (a b : xr) : xr :=
    match a, b with
    | Fin x, Fin y => if Req_EM_T y 0 then xsign_inf x else Fin (d (x / y))
    | NaN, _ | _, NaN => NaN
    | Fin _, _ => Fin 0
    | PInf, Fin y => if Rle_dec 0 y then PInf else NInf
    | NInf, Fin y => if Rle_dec 0 y then NInf else PInf
    | _, _ => NaN
    end.

  (** std::log *)
  Definition xlog (a : xr) : xr :=
    match a with
    | Fin x => if Rlt_dec 0 x then Fin (d (ln x)) else if Rlt_dec x 0 then NaN else NInf
    | PInf => PInf
    | _ => NaN
    end.

  (** std::pow for finite arguments; on a negative base with an integer exponent the real
      power. Infinite arguments give NaN here (simplification: never reached by theorems). *)
  Definition xpow (a b : xr) : xr :=
    match a, b with
    | Fin x, Fin y =>
        if Req_EM_T y 0 then Fin 1
        else if Rlt_dec 0 x then Fin (d (Rpower x y))
        else if Req_EM_T x 0 then (if Rlt_dec 0 y then Fin 0 else PInf)
        else if Req_EM_T y (IZR (Zfloor y)) then Fin (d (powerRZ x (Zfloor y)))
        else NaN
    | _, Fin y => if Req_EM_T y 0 then Fin 1 else NaN
    | Fin x, _ => if Req_EM_T x 1 then Fin 1 else NaN
    | _, _ => NaN
    end.
End Ops.

(** std::fmod, exact in IEEE arithmetic: the remainder of the division truncated towards 0. *)
Definition xfmod (a b : xr) : xr :=
  match a, b with
  | Fin x, Fin y => if Req_EM_T y 0 then NaN else Fin (x - IZR (Ztrunc (x / y)) * y)
  | Fin x, (PInf | NInf) => Fin x
  | _, _ => NaN
  end.

(** std::min(a, b) = (b < a) ? b : a and std::max(a, b) = (a < b) ? b : a. *)
Definition xmin (a b : xr) : xr := if xlt b a then b else a.
Definition xmax (a b : xr) : xr := if xlt a b then b else a.

(** Exact real arithmetic. *)
Definition exact (x : R) : R := x.
(** binary64 and binary32, round to nearest, ties to even (Flocq). *)
Definition rnd64 : R -> R := round radix2 (FLT_exp (-1074) 53) ZnearestE.
Definition rnd32 : R -> R := round radix2 (FLT_exp (-149) 24) ZnearestE.
(** Being a binary64 / binary32 number. *)
Definition is64 (x : R) : Prop := generic_format radix2 (FLT_exp (-1074) 53) x.
Definition is32 (x : R) : Prop := generic_format radix2 (FLT_exp (-149) 24) x.

(** Conversion of a double to an unsigned integer type of [bits] bits: truncation, defined
    only when the truncated value fits. *)
Definition to_unsigned (bits : Z) (a : xr) : outcome nat :=
  match a with
  | Fin x => let z := Ztrunc x in
             if (0 <=? z)%Z && (z <? 2 ^ bits)%Z then Ret (Z.to_nat z) else UB
  | _ => UB
  end.

(* -------- basic facts -------- *)
Lemma xlt_fin x y : xlt (Fin x) (Fin y) = true <-> x < y.
Proof. cbn. destruct (Rlt_dec x y); split; auto; discriminate. Qed.
Lemma xle_fin x y : xle (Fin x) (Fin y) = true <-> x <= y.
Proof. cbn. destruct (Rle_dec x y); split; auto; discriminate. Qed.
Lemma xlt_fin_f x y : xlt (Fin x) (Fin y) = false <-> y <= x.
Proof. cbn. destruct (Rlt_dec x y); split; try discriminate; auto; lra. Qed.
Lemma xle_fin_f x y : xle (Fin x) (Fin y) = false <-> y < x.
Proof. cbn. destruct (Rle_dec x y); split; try discriminate; auto; lra. Qed.
Lemma xeq_fin x y : xeq (Fin x) (Fin y) = true <-> x = y.
Proof. cbn. destruct (Req_EM_T x y); split; auto; discriminate. Qed.
Lemma xsub_fin d x y : xsub d (Fin x) (Fin y) = Fin (d (x - y)).
Proof. reflexivity. Qed.
Lemma xdiv_fin d x y : y <> 0 -> xdiv d (Fin x) (Fin y) = Fin (d (x / y)).
Proof. intro H. cbn. destruct (Req_EM_T y 0); tauto. Qed.

#[export] Instance valid64 : Valid_exp (FLT_exp (-1074) 53).
Proof. apply FLT_exp_valid. reflexivity. Qed.
#[export] Instance valid32 : Valid_exp (FLT_exp (-149) 24).
Proof. apply FLT_exp_valid. reflexivity. Qed.

Lemma rnd64_mono x y : x <= y -> rnd64 x <= rnd64 y.
Proof. apply round_le; auto with typeclass_instances. Qed.
Lemma rnd32_mono x y : x <= y -> rnd32 x <= rnd32 y.
Proof. apply round_le; auto with typeclass_instances. Qed.
Lemma rnd64_id x : is64 x -> rnd64 x = x.
Proof. apply round_generic; auto with typeclass_instances. Qed.
Lemma rnd32_id x : is32 x -> rnd32 x = x.
Proof. apply round_generic; auto with typeclass_instances. Qed.
Lemma rnd64_is x : is64 (rnd64 x).
Proof. apply generic_format_round; auto with typeclass_instances. Qed.
Lemma rnd32_is x : is32 (rnd32 x).
Proof. apply generic_format_round; auto with typeclass_instances. Qed.

Lemma is32_is64 x : is32 x -> is64 x.
Proof.
  intro H. unfold is64, is32 in *. revert H.
  apply generic_inclusion_mag. intros _. unfold FLT_exp. lia.
Qed.

Lemma is32_int (m e : Z) : (Z.abs m < 2 ^ 24)%Z -> (-149 <= e)%Z -> is32 (IZR m * bpow radix2 e).
Proof.
  intros Hm He. apply generic_format_FLT. exists (Float radix2 m e); auto.
Qed.
Lemma is64_int (m e : Z) : (Z.abs m < 2 ^ 53)%Z -> (-1074 <= e)%Z -> is64 (IZR m * bpow radix2 e).
Proof.
  intros Hm He. apply generic_format_FLT. exists (Float radix2 m e); auto.
Qed.
Lemma is32_IZR (m : Z) : (Z.abs m < 2 ^ 24)%Z -> is32 (IZR m).
Proof. intro H. replace (IZR m) with (IZR m * bpow radix2 0) by (cbn; lra). apply is32_int; auto; lia. Qed.
Lemma is64_IZR (m : Z) : (Z.abs m < 2 ^ 53)%Z -> is64 (IZR m).
Proof. intro H. replace (IZR m) with (IZR m * bpow radix2 0) by (cbn; lra). apply is64_int; auto; lia. Qed.
