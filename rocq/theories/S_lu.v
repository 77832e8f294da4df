(** Specification of the accuracy of solving linear systems and of inverting matrices (C108). *)
From Coq Require Import ZArith Reals List.
From Flocq Require Import Core BinarySingleNaN.
From Verif Require Import S_mat S_rnd.
Import ListNotations.
Local Open Scope R_scope.

(** A square matrix of finite machine numbers of at most the size M *)
Definition square_up_to {prec emax} (n : nat) (M : R) (m : list (list (binary_float prec emax))) : Prop :=
  is_mat n n m /\ Forall (Forall (fun x => is_finite x = true /\ Rabs (B2R x) <= M)) m.
(** The real matrix that a machine matrix stands for *)
Definition mvalues {prec emax} (m : list (list (binary_float prec emax))) : list (list R) := map values m.
(** Finite numbers of at most the size X *)
Definition vector_up_to {prec emax} (n : nat) (X : R) (v : list (binary_float prec emax)) : Prop :=
  length v = n /\ Forall (fun x => is_finite x = true /\ Rabs (B2R x) <= X) v.
(** The bound on the residual of a solution with components up to X of a system of n equations with coefficients up to M *)
Definition residual_bound (prec emax : Z) (n : nat) (M X : R) : R :=
  11 * INR n ^ 3 * 2 ^ n * M * (unit_roundoff prec * X + underflow_error prec emax) + 5 * INR n ^ 2 * underflow_error prec emax.
(** The bound on the distance to a singular matrix when a failure is reported *)
Definition failure_bound (prec : Z) (n : nat) (M : R) : R := 1001 / 1000 / 10 ^ 15 + 4 * 2 ^ n * unit_roundoff prec * M.
