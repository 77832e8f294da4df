(** Final theorems: the intersection of a ray and a triangle in machine arithmetic (C114). *)
From Coq Require Import ZArith Reals List Lia Lra Bool.
From Flocq Require Import Core BinarySingleNaN.
From Verif Require Import Ops M_scalar M_vec M_geom M_intersect Inst_F S_vec S_rnd S_intersect S_hit S_raybox S_raytri P_ieee P_raytri P_raytri2.
Import ListNotations.
Local Open Scope R_scope.

Section IEEE.
Variables prec emax : Z.
Context {Hprec : Prec_gt_0 prec} {Hmax : Prec_lt_emax prec emax}.
Notation fl := (binary_float prec emax).
Notation u := (unit_roundoff prec).

(** The result is NaN or a distance at which the ray is at a point of the triangle, up to the error; the ray is not almost parallel to the triangle then. *)
Theorem C114_on_triangle : (20 <= prec)%Z -> (20 <= emax)%Z -> forall (o d p1 p2 p3 : list fl) M, within M o -> nearly_unit d -> within M p1 -> within M p2 -> within M p3 -> 1 <= M -> 100000 * (M * M * M) <= bpow radix2 emax ->
  let r := Ray o d in let s := intersect_ray_triangle r p1 p2 p3 in
  s = o_nan \/ is_finite s = true /\ 0 <= B2R s /\ / 1100 - 217 * (u * (M * M)) <= placement r p1 p2 p3
     /\ (0 < placement r p1 p2 p3 -> exists q, in_triangle (values p1) (values p2) (values p3) q /\ close_upto (ray_triangle_error prec M (placement r p1 p2 p3) (B2R s)) (ray_at (ray_values r) (B2R s)) q).
Proof. exact (sound prec emax). Qed.
(** A ray that meets the triangle farther than the error from its sides, from its plane and from being parallel to it is found to hit it, at that distance. Missing: rays that meet it closer to its sides. *)
Theorem C114_hit_partial : (20 <= prec)%Z -> (20 <= emax)%Z -> forall (o d p1 p2 p3 : list fl) M, within M o -> nearly_unit d -> within M p1 -> within M p2 -> within M p3 -> 1 <= M -> 100000 * (M * M * M) <= bpow radix2 emax ->
  let r := Ray o d in let s := intersect_ray_triangle r p1 p2 p3 in let c := placement r p1 p2 p3 in
  forall t m, in_triangle_by m (values p1) (values p2) (values p3) (ray_at (ray_values r) t) -> / 900 + 217 * (u * (M * M)) <= c -> 1500 * (u * (M * M)) <= m * c -> 600 * (u * (M * M * M)) <= t * c ->
  is_finite s = true /\ Rabs (B2R s - t) <= ray_triangle_error prec M c t.
Proof. exact (complete prec emax). Qed.
End IEEE.
(** In double precision, a ray in a normalized direction can pass exactly through a point of the edge that two triangles share, and be found to hit neither. *)
Theorem C114_edge_refuted : exists (o d a b c e : list double) t, within 16 o /\ nearly_unit d /\ within 16 a /\ within 16 b /\ within 16 c /\ within 16 e /\ 0 <= t
  /\ in_triangle (values c) (values a) (values b) (ray_at (ray_values (Ray o d)) t) /\ in_triangle (values b) (values e) (values a) (ray_at (ray_values (Ray o d)) t)
  /\ BinarySingleNaN.is_nan (intersect_ray_triangle (Ray o d) c a b) = true /\ BinarySingleNaN.is_nan (intersect_ray_triangle (Ray o d) b e a) = true.
Proof. exact edge_leak. Qed.

(** The hypotheses are met in double precision by the ray from (2, 9, 3) towards (-5, -17, -12) and the triangle (-8, 0, 0), (9, 0, 0), (0, 16, 0). *)
Example ex_C114_sizes : within 16 rt_from /\ nearly_unit rt_dir /\ within 16 rt_p /\ within 16 rt_q /\ within 16 rt_r /\ 1 <= 16 /\ 100000 * (16 * 16 * 16) <= bpow radix2 1024.
Proof. exact rt_sizes. Qed.
Example ex_C114_placed : let r := Ray rt_from rt_dir in let c := placement r rt_p rt_q rt_r in let u := unit_roundoff 53 in exists t, in_triangle_by (/ 8) (values rt_p) (values rt_q) (values rt_r) (ray_at (ray_values r) t)
  /\ / 900 + 217 * (u * (16 * 16)) <= c /\ 1500 * (u * (16 * 16)) <= / 8 * c /\ 600 * (u * (16 * 16 * 16)) <= t * c.
Proof. exact rt_case. Qed.
Example ex_C114_hit : is_finite (intersect_ray_triangle (Ray rt_from rt_dir) rt_p rt_q rt_r) = true.
Proof. exact rt_hit. Qed.
Print Assumptions C114_on_triangle.
Print Assumptions C114_hit_partial.
Print Assumptions C114_edge_refuted.
