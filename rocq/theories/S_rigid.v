(** Rigid motions. *)
From Coq Require Import Reals List.
From Verif Require Import S_vec S_affine S_geom.
Import ListNotations.
Local Open Scope R_scope.

(** The affine map M keeps all distances. *)
Definition rigid (n : nat) (M : list (list R)) : Prop := similarity n M 1.
(** The displacement that v becomes. *)
Definition moved (n : nat) (M : list (list R)) (v : list R) : list R := rsub (raffine n M v) (raffine n M (rzero n)).
(** In space: the images of the three axes are a right-handed system, like the axes. *)
Definition keeps_orientation (M : list (list R)) : Prop :=
  0 < rdot (rcross (moved 3 M [1; 0; 0]) (moved 3 M [0; 1; 0])) (moved 3 M [0; 0; 1]).
