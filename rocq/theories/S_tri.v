(** Specification of the corner of a triangle. *)
From Coq Require Import Reals List.
From Verif Require Import S_vec.
Local Open Scope R_scope.

(** The direction orthogonal to the two edges of the triangle p1 p2 p3 at p1, as its length is the product of their lengths and the sine of the angle *)
Definition corner (p1 p2 p3 : list R) : list R := rcross (rsub p3 p1) (rsub p2 p1).
(** The sine of the angle at p1 *)
Definition corner_sine (p1 p2 p3 : list R) : R := rnorm (corner p1 p2 p3) / (rnorm (rsub p3 p1) * rnorm (rsub p2 p1)).
