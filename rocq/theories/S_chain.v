(** Specification of chains of rotations in machine arithmetic (C109). *)
From Coq Require Import ZArith Reals List.
From Flocq Require Import Core BinarySingleNaN.
From Verif Require Import M_quat S_vec S_rnd S_quat S_ft.
Import ListNotations.
Local Open Scope R_scope.

(** The four components of a quaternion, its length and the distance of two quaternions *)
Definition rq_four (q : quat R) : list R := q_r q :: q_v q.
Definition rq_length (q : quat R) : R := rnorm (rq_four q).
Definition rq_dist (p q : quat R) : R := rdist (rq_four p) (rq_four q).
(** A finite machine quaternion of length 1 up to d *)
Definition unit_quat {prec emax} (d : R) (q : quat (binary_float prec emax)) : Prop :=
  quat_finite q /\ Rabs (rq_length (quat_values q) - 1) <= d.
(** The product of a sequence of real quaternions, starting with q *)
Definition rq_product (q : quat R) (l : list (quat R)) : quat R := fold_left rq_mul l q.
(** The vector v turned by one real quaternion after the other *)
Definition rq_turn (v : list R) (l : list (quat R)) : list R := fold_left (fun w q => rq_rotate q w) l v.
