(** Specification for bezier_surface.h: a 3 x 3 grid of control points and the tensor product of the
    quadratic Bernstein polynomials. *)
From Coq Require Import Reals List.
Import ListNotations.
Local Open Scope R_scope.

(** Three rows of three points of dimension [n]. *)
Definition is_grid (n : nat) (cp : list (list (list R))) : Prop :=
  length cp = 3%nat /\ Forall (fun row => length row = 3%nat /\ Forall (fun p => length p = n) row) cp.
Definition control (cp : list (list (list R))) (j k : nat) : list R := nth k (nth j cp []) [].
(** C(2,k) x^k (1-x)^(2-k) *)
Definition bern (k : nat) (x : R) : R :=
  match k with
  | 0%nat => (1 - x) ^ 2
  | 1%nat => 2 * x * (1 - x)
  | _ => x ^ 2
  end.
Definition sum3 (f : nat -> R) : R := f 0%nat + f 1%nat + f 2%nat.
(** The i-th component of the point at (u, v). *)
Definition bezier_value (cp : list (list (list R))) (u v : R) (i : nat) : R :=
  sum3 (fun j => sum3 (fun k => bern j v * bern k u * nth i (control cp j k) 0)).
