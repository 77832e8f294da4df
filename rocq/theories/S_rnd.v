(** Specification of rounding errors: the values of machine vectors and the units in which the errors are measured. *)
From Coq Require Import ZArith Reals List.
From Flocq Require Import Core BinarySingleNaN.
From Verif Require Import S_vec M_geom.
Import ListNotations.
Local Open Scope R_scope.

(** The greatest relative error of one rounding to nearest, and the greatest absolute error of one next to zero. *)
Definition unit_roundoff (prec : Z) : R := bpow radix2 (- prec).
Definition underflow_error (prec emax : Z) : R := bpow radix2 (2 - emax - prec).

(** The real numbers that a machine vector stands for *)
Definition values {prec emax} (v : list (binary_float prec emax)) : list R := map B2R v.
Definition all_finite {prec emax} (v : list (binary_float prec emax)) : Prop := Forall (fun x => is_finite x = true) v.

(** The sum of the sizes of the products in an inner product *)
Definition size_dot (a b : list R) : R := rdot (map Rabs a) (map Rabs b).

(** x is a machine number whose value differs from y by at most e. *)
Definition near {prec emax} (x : binary_float prec emax) (y e : R) : Prop := is_finite x = true /\ Rabs (B2R x - y) <= e.

(** The textbook bound on the error of an inner product of n components whose products have the given size *)
Definition rounding_error (prec emax : Z) (n : nat) (size : R) : R :=
  ((1 + unit_roundoff prec) ^ n - 1) * size + INR n * (1 + unit_roundoff prec) ^ n * underflow_error prec emax.
(** The inner product and all its partial sums stay in the range of the format. *)
Definition no_overflow (prec emax : Z) (n : nat) (size : R) : Prop :=
  (1 + unit_roundoff prec) ^ n * (size + INR n * underflow_error prec emax) < bpow radix2 emax.
(** The dimension is small in comparison to the precision. *)
Definition few (prec : Z) (n : nat) : Prop := INR n * unit_roundoff prec <= / 16.
(** The length of the vector is far from underflow and overflow. *)
Definition moderate (emax : Z) (a : list R) : Prop :=
  bpow radix2 (4 - emax / 2) <= rnorm a <= bpow radix2 (emax / 2 - 1).

(** The signed distance of a point from a plane in real arithmetic, and the size of the terms it is computed from *)
Definition plane_distance {prec emax} (p : plane (binary_float prec emax)) (q : list (binary_float prec emax)) : R :=
  rdot (values q) (values (pl_normal p)) - B2R (pl_dist p).
Definition plane_size {prec emax} (p : plane (binary_float prec emax)) (q : list (binary_float prec emax)) : R :=
  size_dot (values q) (values (pl_normal p)) + Rabs (B2R (pl_dist p)).

(** The r-th row of a matrix, and matrices of finite numbers *)
Definition row {prec emax} (m : list (list (binary_float prec emax))) (r : nat) : list (binary_float prec emax) :=
  map (fun col => nth r col (B754_zero false)) m.
Definition finite_mat {prec emax} (m : list (list (binary_float prec emax))) : Prop := Forall all_finite m.
(** The sizes of the terms of the components of a cross product *)
Definition cross_sizes (a b : list R) : list R :=
  let x v := Rabs (nth 0 v 0) in let y v := Rabs (nth 1 v 0) in let z v := Rabs (nth 2 v 0) in
  [y a * z b + z a * y b; z a * x b + x a * z b; x a * y b + y a * x b].
