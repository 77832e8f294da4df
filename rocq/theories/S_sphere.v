(** Specification of the accuracy of the intersection of a ray and a sphere of machine numbers (C113). *)
From Coq Require Import ZArith Reals List.
From Flocq Require Import Core BinarySingleNaN.
From Verif Require Import S_vec S_rnd M_geom S_intersect S_raybox.
Local Open Scope R_scope.

(** How far the point at distance t on the ray is outside of the sphere: its squared distance from the center minus the squared radius. This is
    positive outside of the sphere, zero on it and negative inside. *)
Definition excess {prec emax} (r : ray (binary_float prec emax)) (center : list (binary_float prec emax)) (radius : binary_float prec emax) (t : R) : R :=
  Rsqr (rdist (ray_at (ray_values r) t) (values center)) - Rsqr (B2R radius).
(** The bound on the error for coordinates and a radius up to M *)
Definition sphere_error (prec : Z) (M : R) : R := 12000 * (unit_roundoff prec * (M * M)).
