(** Specification of the accuracy of the intersection of a ray and a triangle of machine numbers (C114). *)
From Coq Require Import ZArith Reals List.
From Flocq Require Import Core BinarySingleNaN.
From Verif Require Import S_vec S_rnd M_geom S_intersect.
Local Open Scope R_scope.

(** How well the ray and the triangle are placed: twice the area of the triangle, times the sine of the angle between the ray and its plane if the direction is of unit length *)
Definition placement {prec emax} (r : ray (binary_float prec emax)) (p1 p2 p3 : list (binary_float prec emax)) : R :=
  Rabs (rdot (rcross (values (ray_dir r)) (rsub (values p3) (values p1))) (rsub (values p2) (values p1))).
(** The point is in the triangle, and not closer to its sides than a fraction m of its heights. *)
Definition in_triangle_by (m : R) (p1 p2 p3 q : list R) : Prop :=
  exists v w, m <= v /\ m <= w /\ v + w <= 1 - m /\ q = radd (radd p1 (rscale v (rsub p2 p1))) (rscale w (rsub p3 p1)).
(** The coordinates of the points differ by at most e. *)
Definition close_upto (e : R) (p q : list R) : Prop := Forall2 (fun x y => Rabs (x - y) <= e) p q.
(** The bound on the error of a hit at distance t for coordinates up to M and a placement a *)
Definition ray_triangle_error (prec : Z) (M a t : R) : R := 2500 * (unit_roundoff prec * (M * M) * (M + t)) / a.
