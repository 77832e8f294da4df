(** Specification of the intersections. *)
From Coq Require Import ZArith Reals List Bool.
From Verif Require Import Inst_XR M_bbox M_geom S_vec S_geom.
Import ListNotations.
Local Open Scope R_scope.

(** The point of the ray at distance t. *)
Definition ray_at (r : ray R) (t : R) : list R := rpoint (ray_origin r) (ray_dir r) t.
(** Some point of the ray is in the set. *)
Definition hits (A : list R -> Prop) (r : ray R) : Prop := exists t, 0 <= t /\ A (ray_at r t).
(** The ray first meets the set at distance t. *)
Definition first_hit (A : list R -> Prop) (r : ray R) (t : R) : Prop :=
  0 <= t /\ A (ray_at r t) /\ forall t', 0 <= t' < t -> ~ A (ray_at r t').
(** The result of an intersection: the first hit, or NaN if there is none. *)
Definition intersects (A : list R -> Prop) (r : ray R) (x : XR) : Prop :=
  match x with Some t => first_hit A r t | None => ~ hits A r end.
(** The points of a triangle. *)
Definition in_triangle (p1 p2 p3 q : list R) : Prop :=
  exists v w, 0 <= v /\ 0 <= w /\ v + w <= 1 /\ q = radd (radd p1 (rscale v (rsub p2 p1))) (rscale w (rsub p3 p1)).
(** The surface of a box: the points with one component on a side. *)
Definition on_surface (b : bbox R) (q : list R) : Prop :=
  in_box q (bb_min b) (bb_max b)
  /\ exists i, (i < length q)%nat /\ (nth i q 0 = nth i (bb_min b) 0 \/ nth i q 0 = nth i (bb_max b) 0).
Definition is_box (n : nat) (b : bbox R) : Prop := length (bb_max b) = n /\ length (bb_min b) = n /\ Forall2 Rle (bb_min b) (bb_max b).
Definition box_lift (b : bbox R) : bbox XR := BB (map Some (bb_min b)) (map Some (bb_max b)).
(** The points at distance radius from the center. *)
Definition on_sphere (center : list R) (radius : R) (q : list R) : Prop := rdist q center = radius.
(** The points at distance m from the circle of radius M around the center in the x-y plane. *)
Definition on_torus (center : list R) (M m : R) (q : list R) : Prop :=
  match rsub q center with
  | [x; y; z] => sqrt (Rsqr (sqrt (Rsqr x + Rsqr y) - M) + Rsqr z) = m
  | _ => False
  end.
(** The angle between two planes: the sine of the angle between the normals. *)
Definition plane_sine (p1 p2 : plane R) : R := rnorm (rcross (pl_normal p1) (pl_normal p2)).
(** A polynomial that vanishes at the points of the torus. *)
Definition torus_poly (center : list R) (M m : R) (q : list R) : R :=
  match rsub q center with
  | [x; y; z] => Rsqr (Rsqr x + Rsqr y + Rsqr z + Rsqr M - Rsqr m) - 4 * Rsqr M * (Rsqr x + Rsqr y)
  | _ => 0
  end.
