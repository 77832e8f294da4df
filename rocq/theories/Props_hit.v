(** Final theorems: intersections of rays and lines with planes and projections onto planes in machine arithmetic (C104, C105). *)
From Coq Require Import ZArith Reals List Lia Lra Bool.
From Flocq Require Import Core BinarySingleNaN.
From Verif Require Import Ops M_scalar M_vec M_geom M_intersect Inst_F S_vec S_rnd S_hit P_ieee P_fp5 P_hit3 P_hit4 P_hit5.
Import ListNotations.
Local Open Scope R_scope.

Section IEEE.
Variables prec emax : Z.
Context {Hprec : Prec_gt_0 prec} {Hmax : Prec_lt_emax prec emax}.
Notation fl := (binary_float prec emax).
Notation u := (unit_roundoff prec).
Notation az := (B2R (almost_zero : fl)).

(** C104 *)
Theorem C104_ray_plane_point : (20 <= prec)%Z -> (20 <= emax)%Z -> forall (o d : list fl) (p : plane fl) M,
  nearly_unit d -> nearly_unit (pl_normal p) -> within M o -> is_finite (pl_dist p) = true -> Rabs (B2R (pl_dist p)) <= M -> 1 <= M -> 16384 * M <= bpow radix2 emax ->
  let s := intersect_ray_plane (Ray o d) p in let q := al_point_at_distance o d s in is_finite s = true ->
  - az <= B2R s <= 4500 * M
  /\ Rabs (B2R s * rdot (values d) (values (pl_normal p)) + plane_distance p o) <= u * (70 * M + 11 * Rabs (B2R s))
  /\ length q = 3%nat /\ all_finite q /\ Rabs (plane_distance p q) <= u * (74 * M + 18 * Rabs (B2R s)).
Proof. exact (ray_plane_hit prec emax). Qed.
Theorem C104_ray_plane_decision : (20 <= prec)%Z -> (20 <= emax)%Z -> forall (o d : list fl) (p : plane fl) M,
  nearly_unit d -> nearly_unit (pl_normal p) -> within M o -> is_finite (pl_dist p) = true -> Rabs (B2R (pl_dist p)) <= M -> 1 <= M -> 16384 * M <= bpow radix2 emax ->
  let s := intersect_ray_plane (Ray o d) p in let c := rdot (values d) (values (pl_normal p)) in let exact := - plane_distance p o / c in
  (is_finite s = true \/ BinarySingleNaN.is_nan s = true)
  /\ (is_finite s = true -> az - 11 * u <= Rabs c /\ - (az * Rabs c + 71 * u * M) <= Rabs c * exact)
  /\ (az + 11 * u < Rabs c -> 0 <= exact -> bpow radix2 27 * (u * M) <= 1 -> is_finite s = true).
Proof. exact (ray_plane_iff prec emax). Qed.
Theorem C104_ray_plane_inside : (20 <= prec)%Z -> (20 <= emax)%Z -> forall (r : ray fl) (p : plane fl) M,
  nearly_unit (ray_dir r) -> nearly_unit (pl_normal p) -> within M (ray_origin r) -> is_finite (pl_dist p) = true -> Rabs (B2R (pl_dist p)) <= M -> 1 <= M -> 16384 * M <= bpow radix2 emax ->
  bpow radix2 31 * (u * M) <= 1 -> let s := intersect_ray_plane r p in is_finite s = true ->
  pl_point_status p (al_point_at_distance (ray_origin r) (ray_dir r) s) point_status_epsilon = Inside.
Proof. exact (ray_hit_inside prec emax). Qed.
Theorem C104_line_plane_point : (20 <= prec)%Z -> (20 <= emax)%Z -> forall (o d : list fl) (p : plane fl) M,
  nearly_unit d -> nearly_unit (pl_normal p) -> within M o -> is_finite (pl_dist p) = true -> Rabs (B2R (pl_dist p)) <= M -> 1 <= M -> 16384 * M <= bpow radix2 emax ->
  let s := intersect_line_plane (Ln o d) p in let q := al_point_at_distance o d s in is_finite s = true ->
  Rabs (B2R s) <= 4500 * M
  /\ Rabs (B2R s * rdot (values d) (values (pl_normal p)) + plane_distance p o) <= u * (70 * M + 11 * Rabs (B2R s))
  /\ length q = 3%nat /\ all_finite q /\ Rabs (plane_distance p q) <= u * (74 * M + 18 * Rabs (B2R s)).
Proof. exact (line_plane_hit prec emax). Qed.
Theorem C104_line_plane_decision : (20 <= prec)%Z -> (20 <= emax)%Z -> forall (o d : list fl) (p : plane fl) M,
  nearly_unit d -> nearly_unit (pl_normal p) -> within M o -> is_finite (pl_dist p) = true -> Rabs (B2R (pl_dist p)) <= M -> 1 <= M -> 16384 * M <= bpow radix2 emax ->
  let s := intersect_line_plane (Ln o d) p in let c := rdot (values d) (values (pl_normal p)) in
  (is_finite s = true \/ BinarySingleNaN.is_nan s = true)
  /\ (is_finite s = true -> az - 11 * u <= Rabs c) /\ (az + 11 * u < Rabs c -> is_finite s = true).
Proof. exact (line_plane_iff prec emax). Qed.
Theorem C104_line_plane_inside : (20 <= prec)%Z -> (20 <= emax)%Z -> forall (r : line fl) (p : plane fl) M,
  nearly_unit (ln_dir r) -> nearly_unit (pl_normal p) -> within M (ln_point r) -> is_finite (pl_dist p) = true -> Rabs (B2R (pl_dist p)) <= M -> 1 <= M -> 16384 * M <= bpow radix2 emax ->
  bpow radix2 31 * (u * M) <= 1 -> let s := intersect_line_plane r p in is_finite s = true ->
  pl_point_status p (al_point_at_distance (ln_point r) (ln_dir r) s) point_status_epsilon = Inside.
Proof. exact (line_hit_inside prec emax). Qed.

(** C105 *)
Theorem C105_project_point : (20 <= prec)%Z -> (20 <= emax)%Z -> forall (p : plane fl) (x : list fl) M,
  nearly_unit (pl_normal p) -> within M x -> is_finite (pl_dist p) = true -> Rabs (B2R (pl_dist p)) <= M -> 1 <= M -> 16 * M <= bpow radix2 emax ->
  let q := pl_project_point p x in within (503 / 100 * M) q
  /\ Forall2 (fun y z => Rabs (B2R y - z) <= 24 * (u * M)) q (map2 (fun a b => a - plane_distance p x * b) (values x) (values (pl_normal p)))
  /\ Rabs (plane_distance p q) <= 210 * (u * M).
Proof. exact (project_ok prec emax). Qed.
Theorem C105_project_point_inside : (20 <= prec)%Z -> (20 <= emax)%Z -> forall (p : plane fl) (x : list fl) M,
  nearly_unit (pl_normal p) -> within M x -> is_finite (pl_dist p) = true -> Rabs (B2R (pl_dist p)) <= M -> 1 <= M -> 32 * M <= bpow radix2 emax ->
  bpow radix2 22 * (u * M) <= 1 -> pl_point_status p (pl_project_point p x) point_status_epsilon = Inside.
Proof. exact (project_inside prec emax). Qed.
Theorem C105_project_point_twice : (20 <= prec)%Z -> (20 <= emax)%Z -> forall (p : plane fl) (x : list fl) M,
  nearly_unit (pl_normal p) -> within M x -> is_finite (pl_dist p) = true -> Rabs (B2R (pl_dist p)) <= M -> 1 <= M -> 128 * M <= bpow radix2 emax ->
  let q := pl_project_point p x in Forall2 (fun a b => Rabs (B2R a - B2R b) <= 340 * (u * M)) (pl_project_point p q) q.
Proof. exact (project_twice prec emax). Qed.
Theorem C105_project_point_direction : (20 <= prec)%Z -> (20 <= emax)%Z -> forall (p : plane fl) (x d : list fl) M,
  nearly_unit d -> nearly_unit (pl_normal p) -> within M x -> is_finite (pl_dist p) = true -> Rabs (B2R (pl_dist p)) <= M -> 1 <= M -> 16384 * M <= bpow radix2 emax ->
  let q := pl_project_point_dir p x d in let c := rdot (values d) (values (pl_normal p)) in
  (all_finite q /\ length q = 3%nat /\ Rabs (plane_distance p q) <= 82000 * (u * M) \/ q = v_nan 3)
  /\ (az + 11 * u < Rabs c -> all_finite q) /\ (Rabs c < az - 11 * u -> q = v_nan 3)
  /\ (bpow radix2 31 * (u * M) <= 1 -> all_finite q -> pl_point_status p q point_status_epsilon = Inside).
Proof. exact (project_dir prec emax). Qed.
End IEEE.

(** The hypotheses are met in double precision: a ray and a line from (0, 0, -9) in the normalized direction (3, 4, 12), the plane with this
    normal at distance 2, and 16 as the size of the coordinates. They do intersect, and the point is found to be in the plane. *)
Example ex_C104_case : nearly_unit (v_normalize v345 : list double) /\ within 16 case_origin /\ (is_finite (pl_dist case_plane) = true /\ Rabs (B2R (pl_dist case_plane)) <= 16)
  /\ (16384 * 16 <= bpow radix2 1024 /\ bpow radix2 31 * (unit_roundoff 53 * 16) <= 1)
  /\ (is_finite (intersect_ray_plane (Ray case_origin (v_normalize v345)) case_plane) = true /\ is_finite (intersect_line_plane (Ln case_origin (v_normalize v345)) case_plane) = true)
  /\ pl_point_status case_plane (al_point_at_distance case_origin (v_normalize v345) (intersect_ray_plane (Ray case_origin (v_normalize v345)) case_plane)) point_status_epsilon = Inside.
Proof. exact case_all. Qed.
(** The same plane and point for the projections: the point is not in the plane before, but afterwards. *)
Example ex_C105_case : nearly_unit (pl_normal case_plane) /\ within 16 case_origin /\ bpow radix2 22 * (unit_roundoff 53 * 16) <= 1
  /\ pl_point_status case_plane case_origin point_status_epsilon = Below
  /\ pl_point_status case_plane (pl_project_point case_plane case_origin) point_status_epsilon = Inside
  /\ pl_point_status case_plane (pl_project_point_dir case_plane case_origin [cst 0; cst 0; cst 1]) point_status_epsilon = Inside.
Proof. exact case_project. Qed.
Print Assumptions C104_ray_plane_point.
Print Assumptions C104_ray_plane_decision.
Print Assumptions C104_ray_plane_inside.
Print Assumptions C104_line_plane_point.
Print Assumptions C104_line_plane_decision.
Print Assumptions C104_line_plane_inside.
Print Assumptions C105_project_point.
Print Assumptions C105_project_point_inside.
Print Assumptions C105_project_point_twice.
Print Assumptions C105_project_point_direction.
