(** Specification of the accuracy of the distances of machine points to rays and segments (C117). *)
From Coq Require Import ZArith Reals List.
From Flocq Require Import Core BinarySingleNaN.
From Verif Require Import S_vec S_rnd M_geom.
Local Open Scope R_scope.

(** The segment of the values of a segment of machine numbers *)
Definition seg_values {prec emax} (s : segment (binary_float prec emax)) : segment R := Seg (values (seg_start s)) (values (seg_end s)).
(** A machine number that is a distance d up to the given error of its square, and up to that error over d itself *)
Definition distance_near {prec emax} (x : binary_float prec emax) (d e : R) : Prop :=
  is_finite x = true /\ 0 <= B2R x /\ Rabs (B2R x * B2R x - d * d) <= e /\ Rabs (B2R x - d) * d <= e.
