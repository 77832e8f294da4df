(** Specification of conversions. *)
From Coq Require Import ZArith Reals List.
From Flocq Require Import Core BinarySingleNaN.
Import ListNotations.
Local Open Scope R_scope.

(** Numbers of two formats that stand for the same: both NaN, the same infinity, or the same real number with the same sign
    (which tells the two zeros apart) *)
Definition same_number {p1 e1 p2 e2} (x : binary_float p1 e1) (y : binary_float p2 e2) : Prop :=
  (x = B754_nan /\ y = B754_nan)
  \/ (exists s, x = B754_infinity s /\ y = B754_infinity s)
  \/ (is_finite x = true /\ is_finite y = true /\ B2R x = B2R y /\ Bsign x = Bsign y).
(** x is the machine number with the integer value z. *)
Definition is_float {prec emax} (x : binary_float prec emax) (z : Z) : Prop := is_finite x = true /\ B2R x = IZR z.
