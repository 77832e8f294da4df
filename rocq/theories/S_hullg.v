(** Specification of clusters of points on a grid. *)
From Coq Require Import ZArith Reals List.
From Flocq Require Import Core BinarySingleNaN.
From Verif Require Import S_vec S_mat S_rnd S_grid.
Import ListNotations.

(** Points of space with coordinates that are integer multiples of 2^e, of at most the size K * 2^e; coordinates of different points
    differ by at most D * 2^e. *)
Definition grid_cluster {prec emax} (e K D : Z) (ps : list (list (binary_float prec emax))) : Prop :=
  Forall (fun p => length p = 3%nat /\ grid_vec e K p) ps
  /\ forall p q, In p ps -> In q ps -> forall i, (Rabs (nth i (values p) 0 - nth i (values q) 0) <= IZR D * bpow radix2 e)%R.
