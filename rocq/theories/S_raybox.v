(** Specification of the accuracy of the intersection of a ray and a box of machine numbers (C112). *)
From Coq Require Import ZArith Reals List.
From Flocq Require Import Core BinarySingleNaN.
From Verif Require Import M_geom M_bbox S_vec S_rnd S_intersect S_tbox.
Import ListNotations.
Local Open Scope R_scope.

(** A point of dimension n whose coordinates are of at most the given size *)
Definition sized {prec emax} (n : nat) (M : R) (v : list (binary_float prec emax)) : Prop :=
  length v = n /\ all_finite v /\ Forall (fun x => Rabs x <= M) (values v).
(** A direction with components of at most 2, and at least one of at least 1/4, such as a unit vector of up to 16 dimensions *)
Definition is_direction {prec emax} (n : nat) (d : list (binary_float prec emax)) : Prop :=
  sized n 2 d /\ Exists (fun x => / 4 <= Rabs x) (values d).
(** The ray that a ray of machine numbers stands for *)
Definition ray_values {prec emax} (r : ray (binary_float prec emax)) : ray R := Ray (values (ray_origin r)) (values (ray_dir r)).
(** The bound on the errors for coordinates up to M *)
Definition ray_box_error (prec emax : Z) (M : R) : R := 10 * (unit_roundoff prec * M + underflow_error prec emax).
(** The point is on the surface of the box up to e. *)
Definition on_surface_upto (e : R) (b : bbox R) (p : list R) : Prop :=
  in_bbox_upto e b p /\ exists i, (i < length p)%nat /\ (Rabs (nth i p 0 - nth i (bb_min b) 0) <= e \/ Rabs (nth i p 0 - nth i (bb_max b) 0) <= e).
(** In all axes but i, the point is between the faces of the box and at least e away from them. *)
Definition between_others (e : R) (i : nat) (b : bbox R) (p : list R) : Prop :=
  forall j, (j < length p)%nat -> j <> i -> nth j (bb_min b) 0 + e <= nth j p 0 <= nth j (bb_max b) 0 - e.
(** At distance t, the ray enters the box through a face of axis i, at least e away from the edges. *)
Definition enters (e : R) (r : ray R) (b : bbox R) (i : nat) (t : R) : Prop :=
  0 <= t /\ (i < length (ray_origin r))%nat
  /\ (nth i (ray_origin r) 0 < nth i (bb_min b) 0 /\ nth i (ray_at r t) 0 = nth i (bb_min b) 0 \/ nth i (bb_max b) 0 < nth i (ray_origin r) 0 /\ nth i (ray_at r t) 0 = nth i (bb_max b) 0)
  /\ between_others e i b (ray_at r t).
(** At distance t, the ray leaves the box through a face of axis i, at least e away from the edges. *)
Definition leaves (e : R) (r : ray R) (b : bbox R) (i : nat) (t : R) : Prop :=
  0 <= t /\ (i < length (ray_origin r))%nat
  /\ (nth i (ray_dir r) 0 < 0 /\ nth i (ray_at r t) 0 = nth i (bb_min b) 0 \/ 0 < nth i (ray_dir r) 0 /\ nth i (ray_at r t) 0 = nth i (bb_max b) 0)
  /\ between_others e i b (ray_at r t).
