(** Specification of an accurate mathematical library. *)
From Coq Require Import ZArith Reals List.
From Flocq Require Import Core BinarySingleNaN.
From Verif Require Import Ops M_quat S_vec S_rnd S_quat.
Local Open Scope R_scope.

(** Sine and cosine of angles of at most a full turn, the arc cosine and pi are off by at most 8 units of roundoff. *)
Record accurate {prec emax} (lm : libm (binary_float prec emax)) : Prop := {
  acc_pi : near k_pi PI (8 * unit_roundoff prec);
  acc_sin : forall x, is_finite x = true -> Rabs (B2R x) <= 7 -> near (f_sin x) (sin (B2R x)) (8 * unit_roundoff prec);
  acc_cos : forall x, is_finite x = true -> Rabs (B2R x) <= 7 -> near (f_cos x) (cos (B2R x)) (8 * unit_roundoff prec);
  acc_acos : forall x, is_finite x = true -> Rabs (B2R x) <= 1 -> near (f_acos x) (acos (B2R x)) (8 * unit_roundoff prec)
}.
(** The real quaternion that a machine quaternion stands for *)
Definition quat_values {prec emax} (q : quat (binary_float prec emax)) : quat R := Q (B2R (q_r q)) (values (q_v q)).
Definition quat_finite {prec emax} (q : quat (binary_float prec emax)) : Prop := is_finite (q_r q) = true /\ length (q_v q) = 3%nat /\ all_finite (q_v q).
(** The vector part of q v q*, for a real quaternion *)
Definition rq_rotate (q : quat R) (v : list R) : list R := q_v (rq_mul (rq_mul q (Q 0 v)) (rq_conj q)).

(** An accurate library: the exact functions, rounded to the nearest number of the format *)
Definition rounded {prec emax} (Hp : Prec_gt_0 prec) (Hm : Prec_lt_emax prec emax) (x : R) : binary_float prec emax :=
  binary_normalize prec emax Hp Hm mode_NE (ZnearestE (scaled_mantissa radix2 (SpecFloat.fexp prec emax) x)) (cexp radix2 (SpecFloat.fexp prec emax) x) false.
Definition exact_libm {prec emax} (Hp : Prec_gt_0 prec) (Hm : Prec_lt_emax prec emax) : libm (binary_float prec emax) := {|
  k_pi := rounded Hp Hm PI;
  f_sin x := rounded Hp Hm (sin (B2R x));
  f_cos x := rounded Hp Hm (cos (B2R x));
  f_tan x := rounded Hp Hm (tan (B2R x));
  f_asin x := rounded Hp Hm (asin (B2R x));
  f_acos x := rounded Hp Hm (acos (B2R x));
  f_atan2 y x := rounded Hp Hm (atan (B2R y / B2R x));
  f_cbrt x := x
|}.
