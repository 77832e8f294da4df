(** Final theorems: the quaternion between two vectors in machine arithmetic (C106). *)
From Coq Require Import ZArith Reals List Lia Lra Bool.
From Flocq Require Import Core BinarySingleNaN.
From Verif Require Import Ops M_scalar M_vec M_quat Inst_F S_vec S_rnd S_hit S_quat S_ft P_ieee P_fp5 P_ft2 P_ft5.
Import ListNotations.
Local Open Scope R_scope.

Section IEEE.
Variables prec emax : Z.
Context {Hprec : Prec_gt_0 prec} {Hmax : Prec_lt_emax prec emax}.
Notation fl := (binary_float prec emax).
Context {lm : libm fl}.
Notation u := (unit_roundoff prec).
Notation az := (B2R (almost_zero : fl)).

(** The quaternion from f to t exists, has unit length and rotates f onto t; where f and t are so close to each other or to opposite that the
    constructor chooses the identity or a half turn, f goes to itself or to its opposite, which is then at most a twentieth from t. *)
Theorem C106_from_to_partial : (20 <= prec)%Z -> (20 <= emax)%Z -> accurate lm -> forall f t : list fl, nearly_unit f -> nearly_unit t -> let c := rdot (values f) (values t) in
  exists q, q_from_to f t = Ret q /\ quat_finite q /\ Rabs (rq_norm2 (quat_values q) - 1) <= 9000 * u
  /\ (Rabs c < 1 - az - 12 * u -> Forall2 (fun x y => near x y (80000 * u)) (q_rotate q f) (values t))
  /\ (Rabs (c - 1) < az - 12 * u -> Forall2 (fun x y => near x y (80000 * u)) (q_rotate q f) (values f))
  /\ (Rabs (c + 1) < az - 12 * u -> Forall2 (fun x y => near x y (80000 * u)) (q_rotate q f) (rneg (values f)))
  /\ Forall2 (fun x y => near x y (/ 20 + 80000 * u)) (q_rotate q f) (values t).
Proof. exact (from_to_ok prec emax). Qed.
(** The hypothesis on the library can be met in every format. *)
Theorem C106_accurate_library_exists : (20 <= prec)%Z -> (20 <= emax)%Z -> accurate (exact_libm Hprec Hmax).
Proof. exact (exact_accurate prec emax). Qed.
End IEEE.
(** For vectors that merely pass the assertion that they are unit vectors, the constructor can fail its next assertion, whatever the library. *)
Theorem C106_from_to_refuted : forall lm : libm double, exists f : list double, all_finite f /\ v_is_unit f almost_zero = true /\ @q_from_to _ _ lm f f = Assert.
Proof. exact from_to_fails. Qed.

(** The hypotheses are met in double precision: from (3, 4, 12)/13 to the z axis, with a library that rounds the exact functions. *)
Example ex_C106_case : nearly_unit (v_normalize v345 : list double) /\ nearly_unit case_axis /\ accurate (@exact_libm 53 1024 _ _)
  /\ Rabs (rdot (values (v_normalize v345 : list double)) (values case_axis)) < 1 - B2R (almost_zero : double) - 12 * unit_roundoff 53.
Proof. exact case_ft. Qed.
Print Assumptions C106_from_to_partial.
Print Assumptions C106_accurate_library_exists.
Print Assumptions C106_from_to_refuted.
