(** Final theorems: intersections of rays and polygons in machine arithmetic (C118). *)
From Coq Require Import ZArith Reals List Lia Lra Bool.
From Flocq Require Import Core BinarySingleNaN.
From Verif Require Import Ops M_scalar M_vec M_geom M_intersect Inst_F S_vec S_geom S_rnd S_hit S_intersect S_raybox S_polygon S_winding S_polyf S_raypoly P_ieee P_hit P_raypoly P_polyf3 P_raypoly2.
Import ListNotations.
Local Open Scope R_scope.

Section IEEE.
Variables prec emax : Z.
Context {Hprec : Prec_gt_0 prec} {Hmax : Prec_lt_emax prec emax}.
Notation fl := (binary_float prec emax).
Notation u := (unit_roundoff prec).

(** The ray meets the plane of the polygon at the distance t. If the polygon, seen along the largest axis of the normal, winds around this point an odd number of times, the distance is returned up to the rounding errors, otherwise NaN.
    Missing: points on a level with a vertex or close to it, points close to the boundary, and edges across the level of the point that are flatter than the tolerance. *)
Theorem C118_hit_partial : (20 <= prec)%Z -> (20 <= emax)%Z -> forall (r : ray fl) (p : plane fl) (vs : list (list fl)) M m t,
  nearly_unit (ray_dir r) -> nearly_unit (pl_normal p) -> S_hit.within M (ray_origin r) -> is_finite (pl_dist p) = true -> Rabs (B2R (pl_dist p)) <= M ->
  vs <> [] -> Forall (S_hit.within M) vs -> 1 <= M -> 16384 * (M * M) <= bpow radix2 emax -> bpow radix2 27 * (u * M) <= 1 -> / 900 <= slant r p -> 0 <= t <= M ->
  let q := ray_at (ray_values r) t in on_plane 3 (plane_values p) q ->
  let e := ray_polygon_error prec M (slant r p) in / 900 + 4 * e <= m ->
  exists axis, find_abs_max_component (pl_normal p) 0 = Ret axis /\ (axis < 3)%nat /\
  let vs' := map (fun v => seen axis (values v)) vs in let q' := seen axis q in
  (clear_height_by m axis vs' q' -> off_level e axis vs' q' -> clear_boundary_by m axis vs' q' ->
  exists w, winding_number (axis_dir axis) vs' q' w /\ (forall w', winding_number (axis_dir axis) vs' q' w' -> w' = w)
    /\ exists x, intersect_ray_polygon_plane r p vs = Ret x /\ if Z.odd w then near x t e else BinarySingleNaN.is_nan x = true).
Proof. exact (ray_polygon_ok prec emax). Qed.
(** The result is NaN for every polygon if the ray is almost parallel to the plane or leads away from it; the point of the plane on the line of the ray is then at a negative distance t. *)
Theorem C118_miss : (20 <= prec)%Z -> (20 <= emax)%Z -> forall (r : ray fl) (p : plane fl) (vs : list (list fl)) M,
  nearly_unit (ray_dir r) -> nearly_unit (pl_normal p) -> S_hit.within M (ray_origin r) -> is_finite (pl_dist p) = true -> Rabs (B2R (pl_dist p)) <= M -> 1 <= M -> 16384 * M <= bpow radix2 emax ->
  let c := rdot (values (ray_dir r)) (values (pl_normal p)) in
  slant r p <= / 1100 \/ (exists t, t * c = - plane_distance p (ray_origin r) /\ t * slant r p < - (/ 900 + 71 * (u * M))) ->
  exists x, intersect_ray_polygon_plane r p vs = Ret x /\ BinarySingleNaN.is_nan x = true.
Proof. exact (ray_polygon_miss prec emax). Qed.
End IEEE.
(** In double precision, a ray that meets a convex polygon at an inner point can be reported to miss it. *)
Theorem C118_level_refuted : exists (r : ray double) (p : plane double) (vs : list (list double)) t, nearly_unit (ray_dir r) /\ nearly_unit (pl_normal p) /\ slant r p = 1 /\ 0 <= t
  /\ convex_polygon 1 (values (pl_normal p)) (map values vs) /\ (forall i, on_plane 3 (plane_values p) (vertex (map values vs) i)) /\ on_plane 3 (plane_values p) (ray_at (ray_values r) t)
  /\ (forall i, 0 < turn (values (pl_normal p)) (vertex (map values vs) i) (vertex (map values vs) (S i)) (ray_at (ray_values r) t))
  /\ exists x, intersect_ray_polygon_plane r p vs = Ret x /\ BinarySingleNaN.is_nan x = true.
Proof. exact ray_level_refuted. Qed.

(** The hypotheses are met in double precision by rays straight down from (1, 1, 5) and (3, 2, 5) to the plane z = 0 and the triangle seen from above as (0, 0), (4, 0), (0, 4), with the size 8 and the margin 1/100; the first ray hits it at distance 5 and the second does not. *)
Example ex_C118_case : ray_hyps (down 1 1 5) 5 /\ ray_hyps (down 3 2 5) 5
  /\ (exists x, intersect_ray_polygon_plane (down 1 1 5) floor_d tri_d = Ret x /\ o_eq x (cst 5) = true) /\ (exists x, intersect_ray_polygon_plane (down 3 2 5) floor_d tri_d = Ret x /\ BinarySingleNaN.is_nan x = true).
Proof. exact (conj (down_hyps 1 1 5 ltac:(lia) ltac:(lia) ltac:(lia) (or_introl eq_refl)) (conj (down_hyps 3 2 5 ltac:(lia) ltac:(lia) ltac:(lia) (or_intror eq_refl)) down_runs)). Qed.
Print Assumptions C118_hit_partial.
Print Assumptions C118_miss.
Print Assumptions C118_level_refuted.
