(** Real quaternions in scalar-vector form. *)
From Coq Require Import Reals List.
From Verif Require Import M_quat Inst_XR S_vec.
Import ListNotations.
Local Open Scope R_scope.

(** The quaternion with the given real components as a value of the model. *)
Definition qlift (q : quat R) : quat XR := Q (Some (q_r q)) (map Some (q_v q)).
Definition is_quat (q : quat R) : Prop := length (q_v q) = 3%nat.
(** Hamilton's product: (a,u)(b,v) = (ab - u.v, av + bu + u x v). *)
Definition rq_mul (p q : quat R) : quat R :=
  Q (q_r p * q_r q - rdot (q_v p) (q_v q))
    (radd (radd (rscale (q_r p) (q_v q)) (rscale (q_r q) (q_v p))) (rcross (q_v p) (q_v q))).
Definition rq_conj (q : quat R) : quat R := Q (q_r q) (rneg (q_v q)).
(** All components negated, or scaled. *)
Definition rq_opp (q : quat R) : quat R := Q (- q_r q) (rneg (q_v q)).
Definition rq_scale (k : R) (q : quat R) : quat R := Q (k * q_r q) (rscale k (q_v q)).
(** The squared norm. *)
Definition rq_norm2 (q : quat R) : R := q_r q * q_r q + rdot (q_v q) (q_v q).
