(** Final theorems: the missing coordinate of a point of a plane in machine arithmetic (C120). *)
From Coq Require Import ZArith Reals List Lia Lra Bool.
From Flocq Require Import Core BinarySingleNaN.
From Verif Require Import Ops M_scalar M_vec M_geom Inst_F S_vec S_geom S_rnd S_hit S_raypoly P_ieee P_hit P_atf P_planes2 P_atf2.
Import ListNotations.
Local Open Scope R_scope.

Section IEEE.
Variables prec emax : Z.
Context {Hprec : Prec_gt_0 prec} {Hmax : Prec_lt_emax prec emax}.
Notation fl := (binary_float prec emax).
Notation u := (unit_roundoff prec).

(** If the plane is not parallel to the axis, there is exactly one coordinate t that makes the two others a point of the plane; it is returned up to rounding errors that grow only with the slant of the plane, and the point with the returned coordinate is on the plane up to rounding errors that do not. If it is parallel, zero is returned. *)
Theorem C120_at : (20 <= prec)%Z -> (20 <= emax)%Z -> forall (p : plane fl) (a b : fl) axis M, nearly_unit (pl_normal p) -> is_finite (pl_dist p) = true -> Rabs (B2R (pl_dist p)) <= M ->
  is_finite a = true -> is_finite b = true -> Rabs (B2R a) <= M -> Rabs (B2R b) <= M -> 1 <= M -> (axis < 3)%nat ->
  let k := nth axis (values (pl_normal p)) 0 in let x := pl_at p [a; b] axis in
  (k <> 0 -> 8 * M <= Rabs k * bpow radix2 emax -> exists t, (forall s, on_plane 3 (plane_values p) (insert axis s [B2R a; B2R b]) <-> s = t) /\ near x t (14 * (u * M) / Rabs k)
     /\ Rabs (rdot (insert axis (B2R x) [B2R a; B2R b]) (values (pl_normal p)) - B2R (pl_dist p)) <= 14 * (u * M))
  /\ (k = 0 -> is_finite x = true /\ B2R x = 0).
Proof. exact (at_near prec emax). Qed.
End IEEE.

(** The hypotheses are met in double precision by the plane with the normal (3, 4, 0) at the distance 5 and the coordinates y = 5 and z = 2; the returned x is between 1.666 and 1.667. *)
Example ex_C120_case : nearly_unit (pl_normal op_1) /\ is_finite (pl_dist op_1) = true /\ Rabs (B2R (pl_dist op_1)) <= 8 /\ is_finite (cst 5 : double) = true /\ is_finite (cst 2 : double) = true /\ Rabs (B2R (cst 5 : double)) <= 8 /\ Rabs (B2R (cst 2 : double)) <= 8
  /\ nth 0 (values (pl_normal op_1)) 0 <> 0 /\ 8 * 8 <= Rabs (nth 0 (values (pl_normal op_1)) 0) * bpow radix2 1024
  /\ (o_lt (cst 1666) (o_mul (cst 1000) (pl_at op_1 [cst 5; cst 2] 0)) && o_lt (o_mul (cst 1000) (pl_at op_1 [cst 5; cst 2] 0)) (cst 1667) = true)%bool.
Proof. exact at_case. Qed.
Print Assumptions C120_at.
