(** Rotations of space. *)
From Coq Require Import Reals List.
From Verif Require Import Ops M_mat Inst_XR S_vec.
Import ListNotations.
Local Open Scope R_scope.

(** The rotation of p by the angle th about the axis through the origin with unit direction u,
    counter-clockwise when looking against u (Rodrigues' formula). *)
Definition rrot (u : list R) (th : R) (p : list R) : list R :=
  radd (radd (rscale (cos th) p) (rscale (sin th) (rcross u p))) (rscale ((1 - cos th) * rdot u p) u).

(** Multiplying a point by the 4x4 matrix gives f of it. *)
Definition const_acts (m : list (list XR)) (f : list R -> list R) : Prop :=
  forall x y z, m_mul_p 4 m (map Some [x; y; z]) = map Some (f [x; y; z]).
