(** Specification of coordinates on a grid: machine numbers that are integer multiples of a power of two. *)
From Coq Require Import ZArith Reals List.
From Flocq Require Import Core BinarySingleNaN.
From Verif Require Import M_bbox S_vec S_mat.
Import ListNotations.

(** x is the machine number k * 2^e for an integer k of at most the size K. *)
Definition on_grid {prec emax} (e K : Z) (x : binary_float prec emax) : Prop :=
  is_finite x = true /\ exists k, B2R x = (IZR k * bpow radix2 e)%R /\ (Z.abs k <= K)%Z.
Definition grid_vec {prec emax} (e K : Z) (v : list (binary_float prec emax)) : Prop := Forall (on_grid e K) v.
Definition grid_mat {prec emax} (e K : Z) (m : list (list (binary_float prec emax))) : Prop := Forall (grid_vec e K) m.
Definition grid_box {prec emax} (e K : Z) (b : bbox (binary_float prec emax)) : Prop := grid_vec e K (bb_min b) /\ grid_vec e K (bb_max b).
(** All integer multiples k * 2^e with |k| at most K are machine numbers of the format. *)
Definition representable (prec emax e K : Z) : Prop := (3 - emax - prec <= e <= emax - prec /\ K < 2 ^ prec)%Z.

(** The finite machine number, vector, matrix or box with exactly the given value *)
Definition exactly {prec emax} (x : binary_float prec emax) (r : R) : Prop := is_finite x = true /\ B2R x = r.
Definition exact_vec {prec emax} (v : list (binary_float prec emax)) (r : list R) : Prop := Forall2 exactly v r.
Definition exact_mat {prec emax} (m : list (list (binary_float prec emax))) (r : list (list R)) : Prop := Forall2 exact_vec m r.
Definition exact_box {prec emax} (b : bbox (binary_float prec emax)) (r : bbox R) : Prop :=
  exact_vec (bb_min b) (bb_min r) /\ exact_vec (bb_max b) (bb_max r).
(** The box of the values *)
Definition box_values {prec emax} (b : bbox (binary_float prec emax)) : bbox R := BB (map B2R (bb_min b)) (map B2R (bb_max b)).
(** An affine matrix for points of dimension n: the linear part is on one grid, the translation on another one, and the last row is 0 ... 0 1. *)
Definition grid_affine {prec emax} (e A t T : Z) (n : nat) (m : list (list (binary_float prec emax))) : Prop :=
  let entry r c := nth r (nth c m []) (B754_zero false) in
  is_mat (S n) (S n) m /\ (forall r c, (r < n)%nat -> (c < n)%nat -> on_grid e A (entry r c)) /\ (forall r, (r < n)%nat -> on_grid t T (entry r n))
  /\ forall c, (c <= n)%nat -> exactly (entry n c) (delta n c).
