(** Specification of the accuracy of the intersection of two planes of machine numbers (C115). *)
From Coq Require Import ZArith Reals List.
From Flocq Require Import Core BinarySingleNaN.
From Verif Require Import S_vec S_rnd M_geom.
Local Open Scope R_scope.

(** The sine of the angle between two planes whose normals are of unit length *)
Definition angle_sine {prec emax} (p1 p2 : plane (binary_float prec emax)) : R := rnorm (rcross (values (pl_normal p1)) (values (pl_normal p2))).
