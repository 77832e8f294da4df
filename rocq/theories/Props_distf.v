(** Final theorems: distances of points to rays and segments in machine arithmetic (C117). *)
From Coq Require Import ZArith Reals List Lia Lra Bool.
From Flocq Require Import Core BinarySingleNaN.
From Verif Require Import Ops M_scalar M_vec M_geom M_dist Inst_F S_vec S_geom S_dist S_rnd S_hit S_raybox S_distf P_ieee P_raytri2 P_distf P_distf2 P_distf3.
Import ListNotations.
Local Open Scope R_scope.

Section IEEE.
Variables prec emax : Z.
Context {Hprec : Prec_gt_0 prec} {Hmax : Prec_lt_emax prec emax}.
Notation fl := (binary_float prec emax).
Notation u := (unit_roundoff prec).

(** The results are the position and the distance of the nearest point of the ray, up to the error. *)
Theorem C117_ray_point : (20 <= prec)%Z -> (20 <= emax)%Z -> forall (r : ray fl) (p : list fl) M, S_hit.within M (ray_origin r) -> nearly_unit (ray_dir r) -> S_hit.within M p -> 1 <= M -> 1000 * (M * M) <= bpow radix2 emax ->
  exists t, let R := ray_values r in let q := rpoint (ray_origin R) (ray_dir R) t in 0 <= t /\ nearest (on_ray R) (values p) q
    /\ near (pd_position (ray_point_sqdist r p)) t (150 * (u * M)) /\ near (pd_distance (ray_point_sqdist r p)) (rdist2 (values p) q) (410 * (u * (M * M)))
    /\ pd_position (ray_point_dist r p) = pd_position (ray_point_sqdist r p) /\ distance_near (pd_distance (ray_point_dist r p)) (rdist (values p) q) (450 * (u * (M * M))).
Proof. exact (ray_ok prec emax). Qed.
(** The results are the position and the distance of the nearest point of the segment, up to the error. Missing: segments so short that the square of their length underflows. *)
Theorem C117_segment_point_partial : (20 <= prec)%Z -> (20 <= emax)%Z -> forall (s : segment fl) (p : list fl) M, S_hit.within M (seg_start s) -> S_hit.within M (seg_end s) -> S_hit.within M p -> 1 <= M -> 1000 * (M * M) <= bpow radix2 emax ->
  let R := seg_values s in bpow radix2 (5 - emax / 2) <= rdist (seg_end R) (seg_start R) ->
  exists t, let q := seg_at R t in 0 <= t <= rdist (seg_end R) (seg_start R) /\ nearest (on_seg R) (values p) q
    /\ near (pd_position (seg_point_sqdist s p)) t (70 * (u * M)) /\ near (pd_distance (seg_point_sqdist s p)) (rdist2 (values p) q) (1150 * (u * (M * M)))
    /\ pd_position (seg_point_dist s p) = pd_position (seg_point_sqdist s p) /\ distance_near (pd_distance (seg_point_dist s p)) (rdist (values p) q) (1200 * (u * (M * M))).
Proof. exact (seg_ok prec emax). Qed.
(** A segment whose end points are the same has no distance. *)
Theorem C117_no_length : forall (a p : list fl), a <> [] -> length p = length a -> all_finite a ->
  BinarySingleNaN.is_nan (pd_distance (seg_point_sqdist (Seg a a) p)) = true /\ BinarySingleNaN.is_nan (pd_distance (seg_point_dist (Seg a a) p)) = true.
Proof. exact (no_length prec emax). Qed.
End IEEE.
(** In double precision, a short segment whose end points differ has no distance. *)
Theorem C117_short_refuted : exists (s : segment double) p, S_hit.within 1 (seg_start s) /\ S_hit.within 1 (seg_end s) /\ S_hit.within 1 p /\ 0 < rdist (seg_end (seg_values s)) (seg_start (seg_values s))
  /\ BinarySingleNaN.is_nan (pd_distance (seg_point_dist s p)) = true.
Proof. exact tiny_lost. Qed.

(** The hypotheses are met in double precision by the ray from (2, 9, 3) towards (-5, -17, -12), and by the segment from (-8, 0, 0) to (9, 0, 0), with the point (2, 9, 3). *)
Example ex_C117_sizes : S_hit.within 16 rt_from /\ nearly_unit rt_dir /\ S_hit.within 16 rt_p /\ S_hit.within 16 rt_q /\ 1 <= 16 /\ 1000 * (16 * 16) <= bpow radix2 1024
  /\ let s := seg_values (Seg rt_p rt_q) in bpow radix2 (5 - 1024 / 2) <= rdist (seg_end s) (seg_start s).
Proof. exact sizes_case. Qed.
Example ex_C117_segment : let r := seg_point_sqdist (Seg rt_p rt_q) rt_from in (o_eq (pd_position r) (cst 10) && o_eq (pd_distance r) (cst 90))%bool = true.
Proof. exact seg_case. Qed.
Example ex_C117_ray : let r := ray_point_sqdist (Ray rt_from rt_dir) rt_q in (o_lt (cst 7) (pd_position r) && o_lt (pd_position r) (cst 8) && o_lt (cst 81) (pd_distance r) && o_lt (pd_distance r) (cst 139))%bool = true.
Proof. exact ray_case. Qed.
Print Assumptions C117_ray_point.
Print Assumptions C117_segment_point_partial.
Print Assumptions C117_no_length.
Print Assumptions C117_short_refuted.
