(** Affine maps given by matrices with one more row and column. *)
From Coq Require Import Reals List Arith.
From Verif Require Import S_vec S_mat.
Import ListNotations.
Local Open Scope R_scope.

(** A (n+1)x(n+1) matrix whose last row is 0 ... 0 1. *)
Definition affine (n : nat) (M : list (list R)) : Prop :=
  is_mat (S n) (S n) M /\ forall c, (c <= n)%nat -> ent M n c = delta n c.
(** What it does to a point: component r is the sum of M[r,c] p[c], plus M[r,n]. *)
Definition raffine (n : nat) (M : list (list R)) (p : list R) : list R :=
  map (fun r => Rsum n (fun c => ent M r c * nth c p 0) + ent M r n) (seq 0 n).
(** Orthogonal matrices. *)
Definition orthogonal (n : nat) (M : list (list R)) : Prop :=
  rmul n n n M (rtrans n n M) = rid n /\ rmul n n n (rtrans n n M) M = rid n.
