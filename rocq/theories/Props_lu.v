(** Final theorems: solving linear systems and inverting matrices in machine arithmetic (C108). *)
From Coq Require Import ZArith Reals List Lia Lra Bool.
From Flocq Require Import Core BinarySingleNaN.
From Verif Require Import Ops M_scalar M_vec M_mat Inst_F S_mat S_rnd S_lu P_ieee P_lu4 P_lu5.
Import ListNotations.
Local Open Scope R_scope.

Section IEEE.
Variables prec emax : Z.
Context {Hprec : Prec_gt_0 prec} {Hmax : Prec_lt_emax prec emax}.
Notation fl := (binary_float prec emax).
Notation u := (unit_roundoff prec).

(** A solution satisfies each equation up to the residual bound. *)
Theorem C108_solve_residual : (20 <= prec)%Z -> (64 <= emax)%Z -> forall n M X (m : list (list fl)) b x, square_up_to n M m -> length b = n -> 2 ^ n * M < bpow radix2 emax -> INR n ^ 2 * u <= / 100 ->
  lup_solve n m b = (true, x) -> vector_up_to n X x ->
  forall r, (r < n)%nat -> Rabs (nth r (rmulv n n (mvalues m) (values x)) 0 - nth r (values b) 0) <= residual_bound prec emax n M X.
Proof. exact (solve_F prec emax). Qed.
(** If the matrix has an inverse with entries up to K then the solution is close to the exact one. *)
Theorem C108_solve_error : (20 <= prec)%Z -> (64 <= emax)%Z -> forall n M X K (m : list (list fl)) b x C, square_up_to n M m -> length b = n -> 2 ^ n * M < bpow radix2 emax -> INR n ^ 2 * u <= / 100 ->
  lup_solve n m b = (true, x) -> vector_up_to n X x -> is_mat n n C -> inverse n (mvalues m) C ->
  (forall r c, (r < n)%nat -> (c < n)%nat -> Rabs (ent C r c) <= K) ->
  forall i, (i < n)%nat -> Rabs (nth i (values x) 0 - nth i (rmulv n n C (values b)) 0) <= INR n * K * residual_bound prec emax n M X.
Proof. exact (solve_near prec emax). Qed.
(** The matrix times the result of inverting it is the unit matrix up to the residual bound. *)
Theorem C108_invert_residual : (20 <= prec)%Z -> (64 <= emax)%Z -> forall n M X (m res : list (list fl)), square_up_to n M m -> 2 ^ n * M < bpow radix2 emax -> INR n ^ 2 * u <= / 100 ->
  m_invert n m = (true, res) -> square_up_to n X res ->
  forall r c, (r < n)%nat -> (c < n)%nat -> Rabs (ent (rmul n n n (mvalues m) (mvalues res)) r c - delta r c) <= residual_bound prec emax n M X.
Proof. exact (invert_residual prec emax). Qed.
(** If n times the residual bound is below 1 then the matrix is invertible and the result is close to its inverse. *)
Theorem C108_invert_error : (20 <= prec)%Z -> (64 <= emax)%Z -> forall n M X (m res : list (list fl)), square_up_to n M m -> 2 ^ n * M < bpow radix2 emax -> INR n ^ 2 * u <= / 100 ->
  m_invert n m = (true, res) -> square_up_to n X res -> INR n * residual_bound prec emax n M X < 1 ->
  exists B, is_mat n n B /\ inverse n (mvalues m) B /\
    forall r c, (r < n)%nat -> (c < n)%nat -> Rabs (ent (mvalues res) r c - ent B r c) <= INR n * residual_bound prec emax n M X / (1 - INR n * residual_bound prec emax n M X) * X.
Proof. exact (invert_near prec emax). Qed.
(** If solving or inverting fails then a singular matrix is close. *)
Theorem C108_solve_failure : (20 <= prec)%Z -> (64 <= emax)%Z -> forall n M (m : list (list fl)) b x, square_up_to n M m -> 2 ^ n * M < bpow radix2 emax -> lup_solve n m b = (false, x) ->
  x = repeat (cst 0) n /\ exists B, is_mat n n B /\ singular n B /\ forall r c, (r < n)%nat -> (c < n)%nat -> Rabs (ent (mvalues m) r c - ent B r c) < failure_bound prec n M.
Proof. exact (solve_failure_F prec emax). Qed.
Theorem C108_invert_failure : (20 <= prec)%Z -> (64 <= emax)%Z -> forall n M (m res : list (list fl)), square_up_to n M m -> 2 ^ n * M < bpow radix2 emax -> m_invert n m = (false, res) ->
  res = m_identity n n /\ exists B, is_mat n n B /\ singular n B /\ forall r c, (r < n)%nat -> (c < n)%nat -> Rabs (ent (mvalues m) r c - ent B r c) < failure_bound prec n M.
Proof. exact (invert_failure_F prec emax). Qed.
(** Solving and inverting succeed if the inverse has small entries. *)
Theorem C108_success : (20 <= prec)%Z -> (64 <= emax)%Z -> forall n M K (m : list (list fl)) C, square_up_to n M m -> 2 ^ n * M < bpow radix2 emax -> is_mat n n C -> inverse n (mvalues m) C ->
  (forall r c, (r < n)%nat -> (c < n)%nat -> Rabs (ent C r c) <= K) -> INR n * INR n * K * failure_bound prec n M < 1 ->
  fst (m_invert n m) = true /\ forall b, fst (lup_solve n m b) = true.
Proof. exact (success_F prec emax). Qed.
End IEEE.
(** 4x4 matrices in double precision *)
Theorem C108_invert_4x4_double : forall M X (m res : list (list double)), 1 <= M -> 1 <= X -> M * X <= 10 ^ 11 -> square_up_to 4 M m -> m_invert 4 m = (true, res) -> square_up_to 4 X res ->
  (forall r c, (r < 4)%nat -> (c < 4)%nat -> Rabs (ent (rmul 4 4 4 (mvalues m) (mvalues res)) r c - delta r c) <= 13 / 10 / 10 ^ 12 * (M * X))
  /\ exists B, is_mat 4 4 B /\ inverse 4 (mvalues m) B /\ forall r c, (r < 4)%nat -> (c < 4)%nat -> Rabs (ent (mvalues res) r c - ent B r c) <= 11 / 10 ^ 12 * (M * X) * X.
Proof. exact invert_double4. Qed.
(** That a matrix is invertible if inverting it succeeds is false in double precision with small integers. *)
Theorem C108_success_refuted : exists m res : list (list double), square_up_to 3 90 m /\ singular 3 (mvalues m) /\ m_invert 3 m = (true, res) /\ Forall (Forall (fun x => is_finite x = true)) res.
Proof. exact singular_inverted. Qed.
(** That a finite solution is close to the exact one is false for large coefficients: the result is (1, 0) instead of (1/2, 1/2). *)
Theorem C108_large_refuted : exists (m : list (list double)) (b x : list double), square_up_to 2 (bpow radix2 1023) m /\ lup_solve 2 m b = (true, x) /\ all_finite b /\ all_finite x /\ values x = [1; 0]
  /\ rmulv 2 2 (mvalues m) [1 / 2; 1 / 2] = values b.
Proof. exact huge_wrong. Qed.

(** The hypotheses are met in double precision by the matrix with the columns (2,1,0), (1,3,1), (0,2,7) and the right-hand side (1,2,3). *)
Example ex_C108_invert : square_up_to 3 7 reg3 /\ (exists res, m_invert 3 reg3 = (true, res) /\ square_up_to 3 1 res) /\ 2 ^ 3 * 7 < bpow radix2 1024 /\ INR 3 ^ 2 * unit_roundoff 53 <= / 100
  /\ INR 3 * residual_bound 53 1024 3 7 1 < 1.
Proof. exact reg3_case. Qed.
Example ex_C108_success : is_mat 3 3 inv3 /\ inverse 3 (mvalues reg3) inv3 /\ (forall r c, (r < 3)%nat -> (c < 3)%nat -> Rabs (ent inv3 r c) <= 1) /\ INR 3 * INR 3 * 1 * failure_bound 53 3 7 < 1.
Proof. exact inv3_case. Qed.
Example ex_C108_solve : exists x, lup_solve 3 reg3 rhs3 = (true, x) /\ vector_up_to 3 1 x.
Proof. exact rhs3_case. Qed.
(** A failure: the columns (1,4,7), (2,5,8), (3,6,9) *)
Example ex_C108_failure : square_up_to 3 9 (int_matrix flat3z) /\ fst (m_invert 3 (int_matrix flat3z)) = false /\ fst (lup_solve 3 (int_matrix flat3z) rhs3) = false.
Proof. exact flat3_case. Qed.
Example ex_C108_4x4 : square_up_to 4 7 reg4 /\ exists res, m_invert 4 reg4 = (true, res) /\ square_up_to 4 4 res.
Proof. exact reg4_case. Qed.
Print Assumptions C108_solve_residual.
Print Assumptions C108_solve_error.
Print Assumptions C108_invert_residual.
Print Assumptions C108_invert_error.
Print Assumptions C108_solve_failure.
Print Assumptions C108_invert_failure.
Print Assumptions C108_success.
Print Assumptions C108_invert_4x4_double.
Print Assumptions C108_success_refuted.
Print Assumptions C108_large_refuted.
