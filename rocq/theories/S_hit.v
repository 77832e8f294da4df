(** Specification of inputs for the rounding errors of intersections. *)
From Coq Require Import ZArith Reals List.
From Flocq Require Import Core BinarySingleNaN.
From Verif Require Import S_vec S_rnd.
Local Open Scope R_scope.

(** A vector of space whose length is 1 up to a few roundings, such as a normalized one *)
Definition nearly_unit {prec emax} (v : list (binary_float prec emax)) : Prop :=
  length v = 3%nat /\ all_finite v /\ Rabs (rnorm (values v) - 1) <= 16 * unit_roundoff prec.
(** A point of space whose coordinates are of at most the given size *)
Definition within {prec emax} (M : R) (v : list (binary_float prec emax)) : Prop :=
  length v = 3%nat /\ all_finite v /\ Forall (fun x => Rabs x <= M) (values v).
