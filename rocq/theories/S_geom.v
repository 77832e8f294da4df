(** Lines, rays, segments and planes as sets of real points. *)
From Coq Require Import Reals List.
From Verif Require Import Inst_XR M_geom S_vec S_affine.
Import ListNotations.
Local Open Scope R_scope.

(** Real objects as values of the model. *)
Definition line_lift (l : line R) : line XR := Ln (map Some (ln_point l)) (map Some (ln_dir l)).
Definition ray_lift (r : ray R) : ray XR := Ray (map Some (ray_origin r)) (map Some (ray_dir r)).
Definition seg_lift (s : segment R) : segment XR := Seg (map Some (seg_start s)) (map Some (seg_end s)).
Definition plane_lift (p : plane R) : plane XR := Pl (Some (pl_dist p)) (map Some (pl_normal p)).

(** A vector of n components and length 1. *)
Definition unit_vec (n : nat) (v : list R) : Prop := length v = n /\ rdot v v = 1.
(** Objects of dimension n with a direction or normal of length 1. *)
Definition is_line (n : nat) (l : line R) : Prop := length (ln_point l) = n /\ unit_vec n (ln_dir l).
Definition is_ray (n : nat) (r : ray R) : Prop := length (ray_origin r) = n /\ unit_vec n (ray_dir r).
Definition is_plane (n : nat) (p : plane R) : Prop := unit_vec n (pl_normal p).
Definition is_segment (n : nat) (s : segment R) : Prop := length (seg_start s) = n /\ length (seg_end s) = n.

(** Their points. *)
Definition on_line (l : line R) (q : list R) : Prop := exists t, q = rpoint (ln_point l) (ln_dir l) t.
Definition on_ray (r : ray R) (q : list R) : Prop := exists t, 0 <= t /\ q = rpoint (ray_origin r) (ray_dir r) t.
Definition on_seg (s : segment R) (q : list R) : Prop := on_segment q (seg_start s) (seg_end s).
Definition on_plane (n : nat) (p : plane R) (q : list R) : Prop := length q = n /\ rdot q (pl_normal p) = pl_dist p.
(** The first component that is not zero is positive. *)
Definition first_positive (v : list R) : Prop := exists n x r, v = repeat 0 n ++ x :: r /\ 0 < x.
(** q is a point of the set A, and none of its points is nearer to p. *)
Definition nearest (A : list R -> Prop) (p q : list R) : Prop := A q /\ forall q', A q' -> rdist p q <= rdist p q'.
(** Some point of the segment is at most d away from p. *)
Definition within (s : segment R) (p : list R) (d : R) : Prop := exists q, on_seg s q /\ rdist p q <= d.
(** Both end points have n components. *)
Definition seg_dim {T} (n : nat) (s : segment T) : Prop := length (seg_start s) = n /\ length (seg_end s) = n.
(** The affine map M multiplies all distances by k. *)
Definition similarity (n : nat) (M : list (list R)) (k : R) : Prop :=
  affine n M /\ 0 < k
  /\ forall p q, length p = n -> length q = n -> rdist (raffine n M p) (raffine n M q) = k * rdist p q.
(** The list with x inserted at position i. *)
Definition insert (i : nat) (x : R) (l : list R) : list R := firstn i l ++ x :: skipn i l.
(** The other side. *)
Definition opposite (s : plane_status) : plane_status :=
  match s with Above => Below | Below => Above | Inside => Inside end.
(** The matrix does not collapse direction d to a point. *)
Definition keeps (n : nat) (M : list (list R)) (d : list R) : Prop := raffine n M d <> raffine n M (rzero n).
(** The vector a plane's normal is to point along: (p3 - p1) x (p2 - p1). *)
Definition cross_of (p1 p2 p3 : list R) : list R := rcross (rsub p3 p1) (rsub p2 p1).
