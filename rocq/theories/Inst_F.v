(** IEEE-754 binary floating point as a scalar type: any precision and exponent range, one NaN,
    round to nearest even. *)
From Coq Require Import ZArith Reals List Bool.
From Flocq Require Import Core BinarySingleNaN.
From Verif Require Import Ops.

Section F.
Variables prec emax : Z.
Context (Hprec : Prec_gt_0 prec) (Hmax : Prec_lt_emax prec emax).

Notation fl := (binary_float prec emax).

(** Conversion of an integer, rounded to nearest even. *)
Definition F_of_Z (z : Z) : fl := binary_normalize prec emax Hprec Hmax mode_NE z 0 false.
(** [static_cast<int64_t>]: truncation; undefined for NaN, infinities and out of range values. *)
Definition F_to_i64 (x : fl) : option Z :=
  if is_finite x then
    let z := Btrunc x in
    if ((- 2 ^ 63 <=? z) && (z <? 2 ^ 63))%Z then Some z else None
  else None.

#[global] Instance Fops : ops fl := {|
  o_add := Bplus mode_NE;
  o_sub := Bminus mode_NE;
  o_mul := Bmult mode_NE;
  o_div := Bdiv mode_NE;
  o_neg := Bopp;
  o_lt := Bltb;
  o_le := Bleb;
  o_eq := Beqb;
  o_of_Z := F_of_Z;
  o_to_i64 := F_to_i64;
  o_sqrt := Bsqrt mode_NE;
  o_nan := B754_nan;
  o_inf := B754_infinity false
|}.
End F.

(** double and float *)
Definition double := binary_float 53 1024.
#[global] Instance Hprec53 : Prec_gt_0 53 := eq_refl.
#[global] Instance Hmax53 : Prec_lt_emax 53 1024 := eq_refl.
#[global] Instance Dops : ops double := Fops 53 1024 Hprec53 Hmax53.
Definition single := binary_float 24 128.
#[global] Instance Hprec24 : Prec_gt_0 24 := eq_refl.
#[global] Instance Hmax24 : Prec_lt_emax 24 128 := eq_refl.
#[global] Instance SPops : ops single := Fops 24 128 Hprec24 Hmax24.

(** The double with value m * 2^e, for writing witnesses. *)
Definition D (m e : Z) : double := binary_normalize 53 1024 Hprec53 Hmax53 mode_NE m e false.
