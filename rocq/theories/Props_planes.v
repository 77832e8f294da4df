(** Final theorems: the intersection of two planes in machine arithmetic (C115). *)
From Coq Require Import ZArith Reals List Lia Lra Bool.
From Flocq Require Import Core BinarySingleNaN.
From Verif Require Import Ops M_scalar M_vec M_geom M_intersect Inst_F S_vec S_rnd S_hit S_planes P_ieee P_planes P_planes2.
Import ListNotations.
Local Open Scope R_scope.

Section IEEE.
Variables prec emax : Z.
Context {Hprec : Prec_gt_0 prec} {Hmax : Prec_lt_emax prec emax}.
Notation fl := (binary_float prec emax).
Notation u := (unit_roundoff prec).

(** If the angle of the planes is not smaller than the root of the rounding error, the result is a line with a direction along both planes and a point on both of them, up to the errors, or the default line, which says that the planes are almost parallel.
    Missing: planes at smaller angles. *)
Theorem C115_on_planes_partial : (20 <= prec)%Z -> (20 <= emax)%Z -> forall (p1 p2 : plane fl) M,
  nearly_unit (pl_normal p1) -> nearly_unit (pl_normal p2) -> is_finite (pl_dist p1) = true -> is_finite (pl_dist p2) = true -> Rabs (B2R (pl_dist p1)) <= M -> Rabs (B2R (pl_dist p2)) <= M -> 1 <= M -> 32768 * M <= bpow radix2 emax ->
  let S := angle_sine p1 p2 in let l := intersect_plane_plane p1 p2 in 100000 * (u * M) <= S * S ->
  l = ln_default 3 /\ S <= / 900
  \/ / 1100 <= S /\ nearly_unit (ln_dir l) /\ Rabs (rdot (values (ln_dir l)) (values (pl_normal p1))) <= 50 * (u / S) /\ Rabs (rdot (values (ln_dir l)) (values (pl_normal p2))) <= 50 * (u / S)
     /\ length (ln_point l) = 3%nat /\ all_finite (ln_point l) /\ Rabs (plane_distance p1 (ln_point l)) <= 850 * (u * (M * M) / (S * S)) /\ Rabs (plane_distance p2 (ln_point l)) <= 120 * (u * M / S).
Proof. exact (planes_ok prec emax). Qed.
End IEEE.
(** In double precision, two almost parallel planes can have a result that is not the default line, but whose point is more than 1000 from the first plane. *)
Theorem C115_nearly_parallel_refuted : exists p1 p2 : plane double, nearly_unit (pl_normal p1) /\ nearly_unit (pl_normal p2) /\ B2R (pl_dist p1) = 1024 /\ B2R (pl_dist p2) = 16
  /\ let l := intersect_plane_plane p1 p2 in l <> ln_default 3 /\ length (ln_point l) = 3%nat /\ all_finite (ln_point l) /\ 1000 <= Rabs (plane_distance p1 (ln_point l)).
Proof. exact nearly_parallel. Qed.

(** The hypotheses are met in double precision by the planes with the normals (3, 4, 0)/5 and (0, 0, 1) at the distances 5 and -7, and the sizes of 8; the first case does not apply. *)
Example ex_C115_case : nearly_unit (pl_normal op_1) /\ nearly_unit (pl_normal op_2) /\ is_finite (pl_dist op_1) = true /\ is_finite (pl_dist op_2) = true /\ Rabs (B2R (pl_dist op_1)) <= 8 /\ Rabs (B2R (pl_dist op_2)) <= 8 /\ 1 <= 8 /\ 32768 * 8 <= bpow radix2 1024
  /\ 100000 * (unit_roundoff 53 * 8) <= angle_sine op_1 op_2 * angle_sine op_1 op_2 /\ / 900 < angle_sine op_1 op_2.
Proof. exact op_case. Qed.
Print Assumptions C115_on_planes_partial.
Print Assumptions C115_nearly_parallel_refuted.
