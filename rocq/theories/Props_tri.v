(** Final theorems: the plane through three points in machine arithmetic (C107). *)
From Coq Require Import ZArith Reals List Lia Lra Bool.
From Flocq Require Import Core BinarySingleNaN.
From Verif Require Import Ops M_scalar M_vec M_geom Inst_F S_vec S_rnd S_hit S_tri P_ieee P_fp5 P_tri2 P_tri3.
Import ListNotations.
Local Open Scope R_scope.

Section IEEE.
Variables prec emax : Z.
Context {Hprec : Prec_gt_0 prec} {Hmax : Prec_lt_emax prec emax}.
Notation fl := (binary_float prec emax).
Notation u := (unit_roundoff prec).
Notation ae := (B2R (angle_epsilon : fl)).

(** Which points are taken to be collinear, the normal, the distances of the points from the plane and their status *)
Theorem C107_from_points_partial : (20 <= prec)%Z -> (80 <= emax)%Z -> forall (p1 p2 p3 : list fl) M, within M p1 -> within M p2 -> within M p3 -> 1 <= M -> bpow radix2 80 * (M * M * (M * M)) <= bpow radix2 emax ->
  / M <= rnorm (rsub (values p3) (values p1)) -> / M <= rnorm (rsub (values p2) (values p1)) ->
  let C := corner (values p1) (values p2) (values p3) in let S := corner_sine (values p1) (values p2) (values p3) in let x := pl_from_points p1 p2 p3 in let p := snd x in
  (fst x = true -> ae - 42 * u - / bpow radix2 40 <= S)
  /\ (/ bpow radix2 30 <= S -> 1000 * u <= S -> ae + 42 * u <= S -> fst x = true)
  /\ (fst x = true -> / bpow radix2 30 <= S -> 1000 * u <= S -> nearly_unit (pl_normal p) /\ Forall2 (fun x y => Rabs (B2R x - y / rnorm C) <= 39 * (u / S)) (pl_normal p) C /\ is_finite (pl_dist p) = true
      /\ (forall q, In q [p1; p2; p3] -> Rabs (plane_distance p q) <= 250 * (u * M / S))
      /\ (bpow radix2 23 * (u * M) <= S -> forall q, In q [p1; p2; p3] -> pl_point_status p q point_status_epsilon = Inside)).
Proof. exact (from_points_F prec emax). Qed.
(** The threshold for the sine *)
Theorem C107_threshold : (20 <= prec)%Z -> (80 <= emax)%Z -> near (angle_epsilon : fl) (/ 100000000) (4 * u / 100000000 + underflow_error prec emax).
Proof. exact (ae_near prec emax). Qed.
End IEEE.
(** In double precision the plane is off its points by at most 0.000003 times the size of the coordinates. *)
Theorem C107_from_points_double : forall (p1 p2 p3 : list double) M, within M p1 -> within M p2 -> within M p3 -> 1 <= M -> bpow radix2 80 * (M * M * (M * M)) <= bpow radix2 1024 ->
  / M <= rnorm (rsub (values p3) (values p1)) -> / M <= rnorm (rsub (values p2) (values p1)) -> fst (pl_from_points p1 p2 p3) = true ->
  forall q, In q [p1; p2; p3] -> Rabs (plane_distance (snd (pl_from_points p1 p2 p3)) q) <= 3 / 1000000 * M.
Proof. exact from_points_double. Qed.
(** That all three points are found to be in the plane is false in double precision with coordinates of at most 16384. *)
Theorem C107_from_points_refuted : exists p1 p2 p3 : list double, within 16384 p1 /\ within 16384 p2 /\ within 16384 p3 /\ fst (pl_from_points p1 p2 p3) = true
  /\ pl_point_status (snd (pl_from_points p1 p2 p3)) p2 point_status_epsilon = Above.
Proof. exact far_plane. Qed.
(** In single precision the plane can miss a point by more than the size of the coordinates. *)
Theorem C107_single_precision_refuted : exists p1 p2 p3 : list single, within 7 p1 /\ within 7 p2 /\ within 7 p3 /\ fst (pl_from_points p1 p2 p3) = true
  /\ o_lt (pl_point_distance (snd (pl_from_points p1 p2 p3)) p2) (cst (-12)) = true.
Proof. exact near_plane. Qed.

(** The hypotheses are met in double precision by the points (1,1,1), (1,5,1) and (4,1,1). *)
Example ex_C107_case : (within 8 tri1 /\ within 8 tri2 /\ within 8 tri3) /\ bpow radix2 80 * (8 * 8 * (8 * 8)) <= bpow radix2 1024
  /\ / 8 <= rnorm (rsub (values tri3) (values tri1)) /\ / 8 <= rnorm (rsub (values tri2) (values tri1)) /\ fst (pl_from_points tri1 tri2 tri3) = true
  /\ corner_sine (values tri1) (values tri2) (values tri3) = 1 /\ bpow radix2 23 * (unit_roundoff 53 * 8) <= 1.
Proof. exact tri_case. Qed.
Print Assumptions C107_from_points_partial.
Print Assumptions C107_threshold.
Print Assumptions C107_from_points_double.
Print Assumptions C107_from_points_refuted.
Print Assumptions C107_single_precision_refuted.
