(** Final theorems: points and boxes transformed by machine matrices, and rotation matrices (C111). *)
From Coq Require Import ZArith Reals List Lia Lra Bool.
From Flocq Require Import Core BinarySingleNaN.
From Verif Require Import Ops M_scalar M_vec M_mat M_matext M_quat M_bbox Inst_F S_vec S_mat S_affine S_rot S_boxset S_bbox S_grid S_rnd S_hit S_quat S_lu S_ft S_chain S_tbox P_ieee P_fp5 P_fp8 P_chain3 P_tbox2 P_tbox4 P_tbox5 P_tbox6.
Import ListNotations.
Local Open Scope R_scope.

Section IEEE.
Variables prec emax : Z.
Context {Hprec : Prec_gt_0 prec} {Hmax : Prec_lt_emax prec emax}.
Notation fl := (binary_float prec emax).
Notation u := (unit_roundoff prec).
Notation eta := (underflow_error prec emax).
Notation Om := (bpow radix2 emax).

(** A point transformed by an affine matrix *)
Theorem C111_point : (20 <= prec)%Z -> (20 <= emax)%Z -> forall m (p : list fl) M K T, within M p -> affine_up_to K T m -> 2 * (K * M + T + 1) <= Om ->
  Forall2 (fun x y => near x y (image_error prec emax K M T)) (m_mul_p 4 m p) (raffine 3 (mvalues m) (values p)).
Proof. exact (point_transform prec emax). Qed.
(** A transformed box is a box; up to the error bound, it contains the exact image of every point of the box, it is contained in every box that does, and it contains the computed image of every machine point of the box. *)
Theorem C111_box : (20 <= prec)%Z -> (20 <= emax)%Z -> forall (b : bbox fl) m M K T, box_of 3 b -> within M (bb_min b) -> within M (bb_max b) -> affine_up_to K T m ->
  4 * M <= Om -> 2 * (K * M + T + 1) <= Om ->
  let A := mvalues m in let e := image_error prec emax K M T in
  exists c, bb_transform b m = Ret c /\ box_of 3 c /\ all_finite (bb_min c) /\ all_finite (bb_max c)
    /\ (forall p, in_bbox (box_values b) p -> in_bbox_upto e (box_values c) (raffine 3 A p))
    /\ (forall d, is_box 3 d -> (forall p, in_bbox (box_values b) p -> in_bbox d (raffine 3 A p)) -> forall p, in_bbox (box_values c) p -> in_bbox_upto e d p)
    /\ (forall p, in_set b p -> all_finite (m_mul_p 4 m p) /\ in_bbox_upto (2 * e) (box_values c) (values (m_mul_p 4 m p))).
Proof. exact (box_transform prec emax). Qed.
(** The matrix of an axis and an angle turns points about the axis by the angle. *)
Theorem C111_axis_angle : (20 <= prec)%Z -> (20 <= emax)%Z -> forall {lm : libm fl}, accurate lm -> forall (axis : list fl) (angle : fl), nearly_unit axis -> is_finite angle = true -> Rabs (B2R angle) <= 7 ->
  let m := rotation_axis_angle axis angle in let w := rscale (/ rnorm (values axis)) (values axis) in
  affine_up_to 4 0 m /\ (forall p, length p = 3%nat -> rdist (raffine 3 (mvalues m) p) (rrot w (B2R angle) p) <= 322 * u * rnorm p)
  /\ forall v : list fl, length v = 3%nat -> all_finite v -> rnorm (values v) <= Om / 10 ->
    all_finite (m_mul_p 4 m v) /\ rdist (values (m_mul_p 4 m v)) (rrot w (B2R angle) (values v)) <= 400 * (u * rnorm (values v) + eta).
Proof. exact (@axis_matrix prec emax _ _). Qed.
(** The matrix of a quaternion of length 1 up to d turns points like the quaternion. *)
Theorem C111_quaternion : (20 <= prec)%Z -> (20 <= emax)%Z -> forall d (q : quat fl), 0 <= d <= / 50 -> unit_quat d q -> let m := rotation_quat q in
  affine_up_to 4 0 m /\ (forall p, length p = 3%nat -> rdist (raffine 3 (mvalues m) p) (rq_rotate (quat_values q) p) <= (31 * u + 21 / 10 * d) * rnorm p)
  /\ forall v : list fl, length v = 3%nat -> all_finite v -> rnorm (values v) <= Om / 10 ->
    all_finite (m_mul_p 4 m v) /\ rdist (values (m_mul_p 4 m v)) (rq_rotate (quat_values q) (values v)) <= 101 * (u * rnorm (values v) + eta) + 21 / 10 * d * rnorm (values v).
Proof. exact (quat_matrix_turns prec emax). Qed.
(** The matrix of roll, pitch and yaw turns points about the x axis, then about the y axis, then about the z axis. *)
Theorem C111_roll_pitch_yaw : (20 <= prec)%Z -> (20 <= emax)%Z -> forall {lm : libm fl}, accurate lm -> forall roll pitch yaw : fl,
  is_finite roll = true -> is_finite pitch = true -> is_finite yaw = true -> Rabs (B2R roll) <= 7 -> Rabs (B2R pitch) <= 7 -> Rabs (B2R yaw) <= 7 ->
  let m := rotation_rpy roll pitch yaw in let turn p := rrot [0; 0; 1] (B2R yaw) (rrot [0; 1; 0] (B2R pitch) (rrot [1; 0; 0] (B2R roll) p)) in
  affine_up_to 4 0 m /\ (forall p, length p = 3%nat -> rdist (raffine 3 (mvalues m) p) (turn p) <= 1130 * u * rnorm p)
  /\ forall v : list fl, length v = 3%nat -> all_finite v -> rnorm (values v) <= Om / 10 ->
    all_finite (m_mul_p 4 m v) /\ rdist (values (m_mul_p 4 m v)) (turn (values v)) <= 1200 * (u * rnorm (values v) + eta).
Proof. exact (@rpy_matrix prec emax _ _). Qed.
(** The three ways to turn a point about an axis agree. *)
Theorem C111_agree : (20 <= prec)%Z -> (20 <= emax)%Z -> forall {lm : libm fl}, accurate lm -> forall (axis : list fl) (angle : fl) (v : list fl), nearly_unit axis -> is_finite angle = true -> Rabs (B2R angle) <= 7 ->
  length v = 3%nat -> all_finite v -> rnorm (values v) <= Om / 10 -> exists q, q_axis_angle axis angle = Ret q
  /\ rdist (values (m_mul_p 4 (rotation_axis_angle axis angle) v)) (values (q_rotate q v)) <= 530 * (u * rnorm (values v) + eta)
  /\ rdist (values (m_mul_p 4 (rotation_quat q) v)) (values (q_rotate q v)) <= 231 * (u * rnorm (values v) + eta).
Proof. exact (axis_agrees prec emax). Qed.
End IEEE.

(** The hypotheses are met in double precision: the box from (-1, 0, 2) to (3, 4, 12) under a matrix that shears, scales and moves. *)
Example ex_C111_case : box_of 3 box345 /\ within 12 (bb_min box345) /\ within 12 (bb_max box345) /\ affine_up_to 4 7 m345 /\ 4 * 12 <= bpow radix2 1024 /\ 2 * (4 * 12 + 7 + 1) <= bpow radix2 1024.
Proof. exact case_tbox. Qed.
Example ex_C111_axis_case : nearly_unit (pos_x3 : list double) /\ is_finite (cst 2 : double) = true /\ Rabs (B2R (cst 2 : double)) <= 7 /\ accurate (@exact_libm 53 1024 _ _).
Proof. exact case_axis7. Qed.
Example ex_C111_quaternion_case : unit_quat 0 (Q dhalf [dhalf; dhalf; dhalf]) /\ length case_turned = 3%nat /\ all_finite case_turned /\ rnorm (values case_turned) <= bpow radix2 1024 / 10.
Proof. exact case_quat_turn. Qed.
Print Assumptions C111_point.
Print Assumptions C111_box.
Print Assumptions C111_axis_angle.
Print Assumptions C111_quaternion.
Print Assumptions C111_roll_pitch_yaw.
Print Assumptions C111_agree.
