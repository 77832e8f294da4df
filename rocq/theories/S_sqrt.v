(** Specification of square roots of machine numbers and of calls that end. *)
From Coq Require Import ZArith Reals List.
From Flocq Require Import Core BinarySingleNaN.
From Verif Require Import Ops.
Local Open Scope R_scope.

(** The call, given enough fuel for its loop, returns r. *)
Definition ends {A} (call : nat -> outcome A) (r : A) : Prop := exists fuel, forall fuel', (fuel <= fuel')%nat -> call fuel' = Ret r.

(** r is the greatest machine number up to y or the least one from y on. *)
Definition next_to (prec emax : Z) (y r : R) : Prop :=
  r = round radix2 (SpecFloat.fexp prec emax) Zfloor y \/ r = round radix2 (SpecFloat.fexp prec emax) Zceil y.

(** r is a square root of x as a machine may return it: next to the real root, NaN for negative numbers and NaN. *)
Definition root {prec emax : Z} (x r : binary_float prec emax) : Prop :=
  match x with
  | B754_nan | B754_infinity true => r = B754_nan
  | B754_infinity false => r = B754_infinity false
  | _ => (0 <= B2R x -> is_finite r = true /\ next_to prec emax (sqrt (B2R x)) (B2R r)) /\ (B2R x < 0 -> r = B754_nan)
  end.

(** The sum of the squares, the differences of the components and the inner product, in machine arithmetic from left to right *)
Definition sum_squares {prec emax : Z} {Hprec : Prec_gt_0 prec} {Hmax : Prec_lt_emax prec emax} (v : list (binary_float prec emax)) :=
  fold_left (fun s x => Bplus mode_NE s (Bmult mode_NE x x)) v (B754_zero false).
Definition differences {prec emax : Z} {Hprec : Prec_gt_0 prec} {Hmax : Prec_lt_emax prec emax} (v w : list (binary_float prec emax)) :=
  map (fun xy => Bminus mode_NE (fst xy) (snd xy)) (combine v w).
Definition inner {prec emax : Z} {Hprec : Prec_gt_0 prec} {Hmax : Prec_lt_emax prec emax} (v w : list (binary_float prec emax)) :=
  fold_left (fun s xy => Bplus mode_NE s (Bmult mode_NE (fst xy) (snd xy))) (combine v w) (B754_zero false).
(** u is v divided by its length, in machine arithmetic *)
Definition unit_of {prec emax : Z} {Hprec : Prec_gt_0 prec} {Hmax : Prec_lt_emax prec emax} (v u : list (binary_float prec emax)) : Prop :=
  exists l, root (sum_squares v) l /\ u = map (fun x => Bdiv mode_NE x l) v.
(** The numbers differ by at most eps, in machine arithmetic. *)
Definition machine_close {prec emax : Z} {Hprec : Prec_gt_0 prec} {Hmax : Prec_lt_emax prec emax} (x y eps : binary_float prec emax) : bool :=
  Bleb (Babs (Bminus mode_NE x y)) eps.
