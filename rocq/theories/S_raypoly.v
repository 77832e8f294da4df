(** Specification of the intersection of rays and polygons of machine numbers (C118). *)
From Coq Require Import ZArith Reals List.
From Flocq Require Import Core BinarySingleNaN.
From Verif Require Import S_vec S_rnd S_polygon M_geom.
Import ListNotations.
Local Open Scope R_scope.

(** The plane of the values of a plane of machine numbers *)
Definition plane_values {prec emax} (p : plane (binary_float prec emax)) : plane R := Pl (B2R (pl_dist p)) (values (pl_normal p)).
(** The sine of the angle between the ray and the plane, if the direction and the normal are of unit length *)
Definition slant {prec emax} (r : ray (binary_float prec emax)) (p : plane (binary_float prec emax)) : R :=
  Rabs (rdot (values (ray_dir r)) (values (pl_normal p))).
(** No vertex is within e of the height of the point. *)
Definition off_level (e : R) (axis : nat) (vs : list (list R)) (p : list R) : Prop :=
  forall i, e < Rabs (height axis (vertex vs i) - height axis p).
(** The bound on the errors for coordinates and distances up to M *)
Definition ray_polygon_error (prec : Z) (M c : R) : R := 100 * (unit_roundoff prec * M) / c.
