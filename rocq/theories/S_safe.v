(** Calls that return: no assertion fails, no behaviour is undefined and the call ends. *)
From Coq Require Import ZArith Reals List Permutation.
From Flocq Require Import Core.
From Flocq Require Import BinarySingleNaN.
From Verif Require Import Ops.

Definition returns {A} (x : outcome A) : Prop := exists a, x = Ret a.
(** A sorting function that rearranges its elements, whatever the comparison says *)
Definition permutes {A} (sort : (A -> A -> bool) -> list A -> list A) : Prop :=
  forall lt l, Permutation l (sort lt l).
(** The conversion of a number to int64_t is defined. *)
Definition fits_i64 {prec emax} (x : binary_float prec emax) : Prop :=
  is_finite x = true /\ (- (2 ^ 63) - 1 < B2R x < 2 ^ 63)%R.
