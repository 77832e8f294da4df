(** Final theorems: products and sequences of rotations in machine arithmetic (C109). *)
From Coq Require Import ZArith Reals List Lia Lra Bool.
From Flocq Require Import Core BinarySingleNaN.
From Verif Require Import Ops M_scalar M_vec M_quat Inst_F S_vec S_rnd S_hit S_rot S_quat S_ft S_chain P_ieee P_fp5 P_chain P_chain2 P_chain3.
Import ListNotations.
Local Open Scope R_scope.

Section IEEE.
Variables prec emax : Z.
Context {Hprec : Prec_gt_0 prec} {Hmax : Prec_lt_emax prec emax}.
Notation fl := (binary_float prec emax).
Notation u := (unit_roundoff prec).
Notation eta := (underflow_error prec emax).
Notation Om := (bpow radix2 emax).

(** The product of any two quaternions of a format whose lengths do not multiply to half the largest number or more *)
Theorem C109_product : (20 <= prec)%Z -> (20 <= emax)%Z -> forall p q : quat fl, quat_finite p -> quat_finite q -> let L := rq_length (quat_values p) * rq_length (quat_values q) in 2 * L + 1 <= Om ->
  quat_finite (q_mul p q) /\ rq_dist (quat_values (q_mul p q)) (rq_mul (quat_values p) (quat_values q)) <= 12 * (u * L + eta).
Proof. exact (mul_error prec emax). Qed.
(** A vector of any size turned by a quaternion of about unit length *)
Theorem C109_rotate : (20 <= prec)%Z -> (20 <= emax)%Z -> forall (q : quat fl) (v : list fl), unit_quat (/ 50) q -> length v = 3%nat -> all_finite v -> rnorm (values v) <= Om / 5 ->
  length (q_rotate q v) = 3%nat /\ all_finite (q_rotate q v) /\ rdist (values (q_rotate q v)) (rq_rotate (quat_values q) (values v)) <= 25 * (u * rnorm (values v) + eta).
Proof. exact (rotate_error prec emax). Qed.
(** A vector turned by any number of quaternions, one after the other: the error grows in proportion to their number. *)
Theorem C109_chain : (20 <= prec)%Z -> (20 <= emax)%Z -> forall d (l : list (quat fl)) (v : list fl), 0 <= d -> Forall (unit_quat d) l -> length v = 3%nat -> all_finite v -> rnorm (values v) <= Om / 10 ->
  INR (length l) * (2 * d + d * d + 25 * u) <= / 100 ->
  let w := fold_left (fun v q => q_rotate q v) l v in length w = 3%nat /\ all_finite w
  /\ rdist (values w) (rq_turn (values v) (map quat_values l)) <= 26 * INR (length l) * (u * rnorm (values v) + eta).
Proof. exact (chain_error prec emax). Qed.
(** The product of any number of quaternions: its error and the drift of its length grow in proportion to their number. *)
Theorem C109_product_chain : (20 <= prec)%Z -> (20 <= emax)%Z -> forall d (l : list (quat fl)) (q : quat fl), 0 <= d -> Forall (unit_quat d) (q :: l) ->
  INR (length (q :: l)) * (2 * d + d * d + 25 * u) <= / 100 -> let p := fold_left q_mul l q in
  quat_finite p /\ rq_dist (quat_values p) (rq_product (quat_values q) (map quat_values l)) <= 13 * INR (length l) * u
  /\ Rabs (rq_length (quat_values p) - 1) <= INR (length (q :: l)) * (2 * d + 13 * u).
Proof. exact (product_chain_error prec emax). Qed.
(** Turning a vector by the product of the quaternions or by one quaternion after the other, the last factor first, gives about the same vector. *)
Theorem C109_agree : (20 <= prec)%Z -> (20 <= emax)%Z -> forall d (l : list (quat fl)) (q : quat fl) (v : list fl), 0 <= d -> Forall (unit_quat d) (q :: l) ->
  INR (length (q :: l)) * (2 * d + d * d + 25 * u) <= / 100 -> length v = 3%nat -> all_finite v -> rnorm (values v) <= Om / 10 ->
  rdist (values (q_rotate (fold_left q_mul l q) v)) (values (fold_left (fun w p => q_rotate p w) (rev (q :: l)) v)) <= 53 * INR (length (q :: l)) * (u * rnorm (values v) + eta).
Proof. exact (agree_error prec emax). Qed.
(** The quaternion for an axis and an angle turns a vector about the axis by the angle. *)
Theorem C109_axis_angle : (20 <= prec)%Z -> (20 <= emax)%Z -> forall {lm : libm fl}, accurate lm -> forall (axis : list fl) (angle : fl) (v : list fl), nearly_unit axis -> is_finite angle = true -> Rabs (B2R angle) <= 13 ->
  length v = 3%nat -> all_finite v -> rnorm (values v) <= Om / 5 ->
  exists q, q_axis_angle axis angle = Ret q /\ unit_quat (50 * u) q
  /\ rdist (values (q_rotate q v)) (rrot (rscale (/ rnorm (values axis)) (values axis)) (B2R angle) (values v)) <= 130 * (u * rnorm (values v) + eta).
Proof. exact (@axis_angle_turns prec emax _ _). Qed.
End IEEE.

(** The hypotheses are met in double precision: a third of a turn about (1, 1, 1), half a turn about the y axis and the first again, for the vector (1, 2, 3). *)
Example ex_C109_case : Forall (unit_quat 0) case_quats /\ INR (length case_quats) * (2 * 0 + 0 * 0 + 25 * unit_roundoff 53) <= / 100
  /\ length case_turned = 3%nat /\ all_finite case_turned /\ rnorm (values case_turned) <= bpow radix2 1024 / 10.
Proof. exact case_chain. Qed.
Example ex_C109_axis_case : nearly_unit (pos_x3 : list double) /\ is_finite (cst 2 : double) = true /\ Rabs (B2R (cst 2 : double)) <= 13 /\ accurate (@exact_libm 53 1024 _ _).
Proof. exact case_axis_turn. Qed.
Print Assumptions C109_product.
Print Assumptions C109_rotate.
Print Assumptions C109_chain.
Print Assumptions C109_product_chain.
Print Assumptions C109_agree.
Print Assumptions C109_axis_angle.
