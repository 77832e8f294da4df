(** Final theorems: quaternions (C37 to C39, C72). *)
From Coq Require Import ZArith Reals List Bool Lia Lra.
From Verif Require Import Ops M_scalar M_vec M_mat M_quat Inst_XR S_vec S_mat S_rot S_quat.
From Verif Require Import P_xr P_vec P_vec2 P_quat P_small.
Import ListNotations.
Local Open Scope R_scope.

(** [vS a] is the vector with the real components [a]. *)
Notation vS := (map (@Some R)).

(** C37 *)
Theorem C37_product : forall p q, is_quat p -> is_quat q -> q_mul (qlift p) (qlift q) = qlift (rq_mul p q).
Proof. exact quat_product. Qed.
Theorem C37_algebra : forall p q r, is_quat p -> is_quat q -> is_quat r ->
  q_mul (qlift p) (q_mul (qlift q) (qlift r)) = q_mul (q_mul (qlift p) (qlift q)) (qlift r)
  /\ q_conjugate (q_mul (qlift p) (qlift q)) = q_mul (q_conjugate (qlift q)) (q_conjugate (qlift p))
  /\ (exists s, q_mul (qlift p) (qlift q) = qlift s /\ rq_norm2 s = rq_norm2 p * rq_norm2 q)
  /\ q_mul (qlift q) (q_conjugate (qlift q)) = qlift (Q (rq_norm2 q) [0; 0; 0])
  /\ q_mul (qlift q) (qlift (Q 1 [0; 0; 0])) = qlift q /\ q_mul (qlift (Q 1 [0; 0; 0])) (qlift q) = qlift q.
Proof. exact quat_algebra. Qed.
Theorem C37_isometry : forall q u v, is_quat q -> rq_norm2 q = 1 -> length u = 3%nat -> length v = 3%nat ->
  exists u' v', q_rotate (qlift q) (vS u) = vS u' /\ q_rotate (qlift q) (vS v) = vS v'
    /\ length u' = 3%nat /\ length v' = 3%nat
    /\ rdot u' v' = rdot u v /\ rnorm u' = rnorm u
    /\ q_rotate (qlift q) (vS (rcross u v)) = vS (rcross u' v').
Proof. exact quat_isometry. Qed.
Theorem C37_composition : forall p q v, is_quat p -> is_quat q -> length v = 3%nat ->
  q_rotate (q_mul (qlift p) (qlift q)) (vS v) = q_rotate (qlift p) (q_rotate (qlift q) (vS v)).
Proof. exact quat_composition. Qed.
Theorem C37_linear : forall q u v k, is_quat q -> length u = 3%nat -> length v = 3%nat ->
  q_rotate (qlift q) (vS (radd u v)) = v_add (q_rotate (qlift q) (vS u)) (q_rotate (qlift q) (vS v))
  /\ q_rotate (qlift q) (vS (rscale k u)) = v_scale (q_rotate (qlift q) (vS u)) (Some k).
Proof. exact quat_linear. Qed.
Theorem C37_undo : forall q v, is_quat q -> rq_norm2 q = 1 -> length v = 3%nat ->
  q_rotate (q_conjugate (qlift q)) (q_rotate (qlift q) (vS v)) = vS v.
Proof. exact quat_undo. Qed.
Example C37_ex : is_quat (Q (3/5) [0; 4/5; 0]) /\ rq_norm2 (Q (3/5) [0; 4/5; 0]) = 1 /\ length [1; 2; 3] = 3%nat.
Proof. unfold is_quat, rq_norm2. simpl. repeat split; lra. Qed.
Theorem C37_axis_angle_rotation : forall u th v, length u = 3%nat -> length v = 3%nat -> rdot u u = 1 ->
  exists q, q_axis_angle (vS u) (Some th) = Ret (qlift q) /\ is_quat q /\ rq_norm2 q = 1
    /\ q_rotate (qlift q) (vS v) = vS (rrot u th v).
Proof. exact axis_angle_rotation. Qed.
Theorem C37_axis_angle_asserts_unit_axis : forall u th, Rabs (rnorm u - 1) > 1 / 1000 ->
  q_axis_angle (vS u) (Some th) = Assert.
Proof. exact axis_angle_not_unit. Qed.
Example C37_axis_ex : rdot [3/5; 0; 4/5] [3/5; 0; 4/5] = 1.
Proof. simpl. lra. Qed.
Example C37_axis_ex2 : Rabs (rnorm [2; 0; 0] - 1) > 1 / 1000.
Proof. unfold rnorm. simpl. replace (2 * 2 + (0 * 0 + (0 * 0 + 0))) with (2 * 2) by ring. rewrite sqrt_square by lra.
  rewrite Rabs_pos_eq; lra. Qed.

(** C38. The full property is false: see the refutation. What holds: [!=] is the negation of [==], and
    equality means equal vector parts and equal or opposite scalar parts. *)
Theorem C38_not_equal : forall T (o : ops T) (p q : quat T), q_ne p q = negb (q_eq p q).
Proof. exact quat_ne. Qed.
Theorem C38_equal_iff : forall p q, is_quat p -> is_quat q ->
  (q_eq (qlift p) (qlift q) = true <-> (q_r p = q_r q \/ q_r p = - q_r q) /\ q_v p = q_v q).
Proof. exact quat_eq_iff. Qed.
Theorem C38_partial : forall p q v, is_quat p -> is_quat q -> length v = 3%nat ->
  q_rotate (qlift (rq_opp q)) (vS v) = q_rotate (qlift q) (vS v)
  /\ (q_eq (qlift p) (qlift q) = true -> q_r p * q_r q >= 0 -> q_rotate (qlift p) (vS v) = q_rotate (qlift q) (vS v))
  /\ q_rotate (q_neg (qlift q)) (vS v) = q_rotate (q_conjugate (qlift q)) (vS v).
Proof. exact quat_eq_partial. Qed.
(** Missing: that a scalar scales all components (refuted below). *)
Theorem C38_scalar_partial : forall q s, is_quat q -> q_pos (qlift q) = qlift q
  /\ q_scale (qlift q) (Some s) = qlift (Q (s * q_r q) (q_v q)) /\ q_scale_l (Some s) (qlift q) = q_scale (qlift q) (Some s).
Proof. exact quat_scalar. Qed.
Theorem C38_refuted : exists p q v, is_quat p /\ is_quat q /\ rq_norm2 p = 1 /\ rq_norm2 q = 1
  /\ q_eq (qlift p) (qlift q) = true /\ q_rotate (qlift p) (vS v) <> q_rotate (qlift q) (vS v)
  /\ q_eq (qlift p) (qlift (rq_opp p)) = false
  /\ q_neg (qlift p) <> qlift (rq_opp p) /\ q_scale (qlift p) (Some 2) <> qlift (rq_scale 2 p).
Proof. exact quat_eq_refuted. Qed.
(** Two quaternions that are equal although only their vector parts agree. *)
Example ex_C38_case : is_quat (Q 3 [1; -2; 5]) /\ is_quat (Q (-3) [1; -2; 5]) /\ q_eq (qlift (Q 3 [1; -2; 5])) (qlift (Q (-3) [1; -2; 5])) = true.
Proof. split; [reflexivity|]. split; [reflexivity|]. apply quat_eq_iff; [reflexivity|reflexivity|]. cbn. split; [right; lra|reflexivity]. Qed.

(** C39. False for nearly (but not exactly) parallel vectors, which are treated as parallel; the error is bounded. *)
Theorem C39_from_to_partial : forall f t, length f = 3%nat -> length t = 3%nat -> rdot f f = 1 -> rdot t t = 1 ->
  exists q r, q_from_to (vS f) (vS t) = Ret (qlift q) /\ is_quat q /\ rq_norm2 q = 1
    /\ q_rotate (qlift q) (vS f) = vS r
    /\ (Rabs (rdot f t) < 1 - 1 / 1000 -> r = t) /\ (t = f -> r = t) /\ (t = rneg f -> r = t)
    /\ rdot (rsub r t) (rsub r t) <= 2 / 1000.
Proof. exact quat_from_to. Qed.
Theorem C39_from_to_refuted : exists f t q, length f = 3%nat /\ length t = 3%nat /\ rdot f f = 1 /\ rdot t t = 1
  /\ q_from_to (vS f) (vS t) = Ret q /\ q_rotate q (vS f) <> vS t.
Proof. exact quat_from_to_refuted. Qed.
Theorem C39_from_to_assertion : exists f, length f = 3%nat /\ v_is_unit (vS f) almost_zero = true /\
  q_from_to (vS f) (vS f) = Assert.
Proof. exact quat_from_to_assert. Qed.
Example C39_ex : rdot [1; 0; 0] [1; 0; 0] = 1 /\ rdot [3/5; 4/5; 0] [3/5; 4/5; 0] = 1
  /\ Rabs (rdot [1; 0; 0] [3/5; 4/5; 0]) < 1 - 1 / 1000.
Proof. simpl. repeat split; try lra. rewrite Rabs_pos_eq; lra. Qed.

(** C72 *)
Theorem C72_angle : forall u th, rdot u u = 1 -> 0 <= th <= 2 * PI ->
  exists q, q_axis_angle (vS u) (Some th) = Ret (qlift q) /\ q_angle (qlift q) = Some th.
Proof. exact quat_angle. Qed.
Theorem C72_axis : forall u th, rdot u u = 1 -> 0 <= th <= 2 * PI ->
  exists q, q_axis_angle (vS u) (Some th) = Ret (qlift q) /\
    ((exists x, In x u /\ Rabs (sin (th / 2) * x) > 1 / 1000) -> q_axis (qlift q) = vS u).
Proof. exact quat_axis. Qed.
Example C72_ex : rdot [0; 0; 1] [0; 0; 1] = 1 /\ 0 <= 1 <= 2 * PI.
Proof. pose proof PI2_1. simpl. repeat split; lra. Qed.
Print Assumptions C37_product.
Print Assumptions C37_algebra.
Print Assumptions C37_isometry.
Print Assumptions C37_composition.
Print Assumptions C37_linear.
Print Assumptions C37_undo.
Print Assumptions C37_axis_angle_rotation.
Print Assumptions C37_axis_angle_asserts_unit_axis.
Print Assumptions C38_not_equal.
Print Assumptions C38_equal_iff.
Print Assumptions C38_partial.
Print Assumptions C38_scalar_partial.
Print Assumptions C38_refuted.
Print Assumptions C39_from_to_partial.
Print Assumptions C39_from_to_refuted.
Print Assumptions C39_from_to_assertion.
Print Assumptions C72_angle.
Print Assumptions C72_axis.
