(** Distances between sets of points. *)
From Coq Require Import Reals List.
From Verif Require Import Inst_XR M_geom M_dist S_vec S_geom.
Import ListNotations.
Local Open Scope R_scope.

(** The squared distance of two points. *)
Definition rdist2 (a b : list R) : R := rdot (rsub a b) (rsub a b).
(** p of A and q of B are as near to each other as points of these sets can be. *)
Definition closest (A B : list R -> Prop) (p q : list R) : Prop :=
  A p /\ B q /\ forall p' q', A p' -> B q' -> rdist2 p q <= rdist2 p' q'.
(** The line a ray is part of. *)
Definition ray_line (r : ray R) : line R := Ln (ray_origin r) (ray_dir r).
(** The point of a segment at distance x from its start. *)
Definition seg_at (s : segment R) (x : R) : list R :=
  rpoint (seg_start s) (rsub (seg_end s) (seg_start s)) (x / rdist (seg_end s) (seg_start s)).
(** The result is the distance of the two sets, attained at the two points. *)
Definition ld_ok (x : line_distance XR) (A B : list R -> Prop) (at1 at2 : R -> list R) : Prop :=
  exists par t d s, x = LD par (Some t) (Some d) (Some s)
    /\ closest A B (at1 t) (at2 s) /\ d = rdist2 (at1 t) (at2 s).
(** The parallelogram of two directions has area 0, area^2 > 1/1000. *)
Definition area2 (u v : list R) : R := rdot u u * rdot v v - rdot u v * rdot u v.
