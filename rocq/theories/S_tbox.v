(** Specification of the accuracy of transforming points and boxes by matrices of machine numbers (C111). *)
From Coq Require Import ZArith Reals List.
From Flocq Require Import Core BinarySingleNaN.
From Verif Require Import M_bbox S_vec S_mat S_rnd S_affine S_lu.
Import ListNotations.
Local Open Scope R_scope.

(** The point is in the box grown by e to all sides. *)
Definition in_bbox_upto (e : R) (b : bbox R) (p : list R) : Prop :=
  Forall2 (fun x y => x - e <= y) (bb_min b) p /\ Forall2 (fun y z => y <= z + e) p (bb_max b).
(** An affine map of space given by a machine matrix: the coefficients of a component sum up to at most K, and the translation is at most T. *)
Definition affine_up_to {prec emax} (K T : R) (m : list (list (binary_float prec emax))) : Prop :=
  finite_mat m /\ affine 3 (mvalues m)
  /\ forall r, (r < 3)%nat -> Rabs (ent (mvalues m) r 0) + Rabs (ent (mvalues m) r 1) + Rabs (ent (mvalues m) r 2) <= K
       /\ Rabs (ent (mvalues m) r 3) <= T.
(** The bound on the error of each coordinate of the image of a point with coordinates up to M *)
Definition image_error (prec emax : Z) (K M T : R) : R := 10 * (unit_roundoff prec * (K * M + T) + underflow_error prec emax).
