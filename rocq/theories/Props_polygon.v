(** Final theorems: points in polygons (C59). *)
From Coq Require Import ZArith Reals List Bool Lia Lra Arith.
From Verif Require Import Ops M_scalar M_vec M_bbox M_geom M_intersect Inst_XR S_vec S_geom S_intersect S_polygon S_winding.
From Verif Require Import P_plane P_polygon P_winding.
Import ListNotations.
Local Open Scope R_scope.
Notation vS := (map (@Some R)).

(** C59 for polygons of any shape in an arbitrary plane: the point is accepted exactly if the polygon winds
    around it an odd number of times. For a polygon whose edges do not cross this is once for the points inside and
    not at all for the points outside. Missing: points level with a vertex (refuted), where level means the
    height in the plane that is seen along the axis, and points within the tolerance of the boundary. *)
Theorem C59_winding_axis_partial : forall n vs p axis, length n = 3%nat -> plane_polygon n vs -> length p = 3%nat -> rdot p n = rdot (vertex vs 0) n ->
  (axis < 3)%nat -> nth axis n 0 <> 0 -> clear_height axis vs p -> clear_boundary axis vs p ->
  exists w, winding_number n vs p w /\ (forall w', winding_number n vs p w' -> w' = w)
    /\ polygon_contains_point (vS p) axis (map vS vs) = Ret (Z.odd w).
Proof. exact winding_ok. Qed.
Theorem C59_winding_normal_partial : forall n vs p, length n = 3%nat -> rdot n n <> 0 -> plane_polygon n vs -> length p = 3%nat -> rdot p n = rdot (vertex vs 0) n ->
  exists axis, (axis < 3)%nat /\ (forall j, Rabs (nth j n 0) <= Rabs (nth axis n 0))
    /\ (clear_height axis vs p -> clear_boundary axis vs p -> exists w, winding_number n vs p w /\ (forall w', winding_number n vs p w' -> w' = w)
         /\ polygon_contains_point_n (vS p) (vS n) (map vS vs) = Ret (Z.odd w)).
Proof. exact winding_normal. Qed.
Theorem C59_winding_partial : forall v0 v1 v2 l p, let vs := v0 :: v1 :: v2 :: l in let n := cross_of v0 v1 v2 in
  plane_polygon n vs -> length p = 3%nat -> rdot p n = rdot v0 n ->
  rnorm (rsub v2 v0) * rnorm (rsub v1 v0) <> 0 -> / 100000000 * (rnorm (rsub v2 v0) * rnorm (rsub v1 v0)) <= rnorm n ->
  exists axis, (axis < 3)%nat /\ (forall j, Rabs (nth j n 0) <= Rabs (nth axis n 0))
    /\ (clear_height axis vs p -> clear_boundary axis vs p -> exists w, winding_number n vs p w /\ (forall w', winding_number n vs p w' -> w' = w)
         /\ polygon_contains (vS p) (map vS vs) = Ret (Z.odd w)).
Proof. exact winding_three. Qed.
(** Intersection of a ray with such a polygon. *)
Theorem C59_ray_winding_partial : forall r pl vs, length (ray_origin r) = 3%nat -> length (ray_dir r) = 3%nat -> is_plane 3 pl ->
  plane_polygon (pl_normal pl) vs -> on_plane 3 pl (vertex vs 0) ->
  / 1000 < Rabs (rdot (ray_dir r) (pl_normal pl)) -> (forall t, - / 1000 <= t < 0 -> ~ on_plane 3 pl (ray_at r t)) ->
  exists axis, (axis < 3)%nat /\ (forall j, Rabs (nth j (pl_normal pl) 0) <= Rabs (nth axis (pl_normal pl) 0))
    /\ ((forall t, on_plane 3 pl (ray_at r t) -> clear_height axis vs (ray_at r t) /\ clear_boundary axis vs (ray_at r t)) ->
        exists x, intersect_ray_polygon_plane (ray_lift r) (plane_lift pl) (map vS vs) = Ret x
          /\ intersects (fun q => on_plane 3 pl q /\ exists w, winding_number (pl_normal pl) vs q w /\ Z.odd w = true) r x).
Proof. exact ray_winding_ok. Qed.
(** Strictly convex polygons, where a point inside is accepted also within the tolerance of the boundary. *)
Theorem C59_contains_axis_partial : forall s n vs p axis, length n = 3%nat -> convex_polygon s n vs -> length p = 3%nat -> rdot p n = rdot (vertex vs 0) n ->
  (axis < 3)%nat -> nth axis n 0 <> 0 -> clear_height axis vs p ->
  exists b, polygon_contains_point (vS p) axis (map vS vs) = Ret b
    /\ (in_polygon s n vs p -> b = true)
    /\ (~ in_polygon s n vs p -> clear_boundary axis vs p -> b = false).
Proof. exact contains_axis. Qed.
Theorem C59_contains_normal_partial : forall s n vs p, length n = 3%nat -> rdot n n <> 0 -> convex_polygon s n vs -> length p = 3%nat -> rdot p n = rdot (vertex vs 0) n ->
  exists axis, (axis < 3)%nat /\ (forall j, Rabs (nth j n 0) <= Rabs (nth axis n 0))
    /\ (clear_height axis vs p -> exists b, polygon_contains_point_n (vS p) (vS n) (map vS vs) = Ret b
         /\ (in_polygon s n vs p -> b = true) /\ (~ in_polygon s n vs p -> clear_boundary axis vs p -> b = false)).
Proof. exact contains_normal. Qed.
Theorem C59_contains_partial : forall s n v0 v1 v2 l p, let vs := v0 :: v1 :: v2 :: l in length n = 3%nat -> convex_polygon s n vs -> length p = 3%nat -> rdot p n = rdot (vertex vs 0) n ->
  / 100000000 * (rnorm (rsub v2 v0) * rnorm (rsub v1 v0)) <= rnorm (cross_of v0 v1 v2) ->
  exists axis, (axis < 3)%nat /\ nth axis n 0 <> 0
    /\ (clear_height axis vs p -> exists b, polygon_contains (vS p) (map vS vs) = Ret b
         /\ (in_polygon s n vs p -> b = true) /\ (~ in_polygon s n vs p -> clear_boundary axis vs p -> b = false)).
Proof. exact contains_three. Qed.
Theorem C59_level_refuted : exists vs p, convex_polygon 1 [0; 0; 1] vs /\ in_polygon 1 [0; 0; 1] vs p
  /\ (forall i, 0 < turn [0; 0; 1] (vertex vs i) (vertex vs (S i)) p)
  /\ polygon_contains_point_n (vS p) (vS [0; 0; 1]) (map vS vs) = Ret false.
Proof. exact polygon_level_refuted. Qed.
(** Intersection of a ray with a convex polygon. *)
Theorem C59_ray_polygon_partial : forall s r pl vs, length (ray_origin r) = 3%nat -> length (ray_dir r) = 3%nat -> is_plane 3 pl ->
  convex_polygon s (pl_normal pl) vs -> on_plane 3 pl (vertex vs 0) ->
  / 1000 < Rabs (rdot (ray_dir r) (pl_normal pl)) -> (forall t, - / 1000 <= t < 0 -> ~ on_plane 3 pl (ray_at r t)) ->
  exists axis, (axis < 3)%nat /\ (forall j, Rabs (nth j (pl_normal pl) 0) <= Rabs (nth axis (pl_normal pl) 0))
    /\ ((forall t, on_plane 3 pl (ray_at r t) -> clear_height axis vs (ray_at r t) /\ clear_boundary axis vs (ray_at r t)) ->
        exists x, intersect_ray_polygon_plane (ray_lift r) (plane_lift pl) (map vS vs) = Ret x
          /\ intersects (in_polygon s (pl_normal pl) vs) r x).
Proof. exact ray_polygon_ok. Qed.
Theorem C59_ray_polygon_points : forall r v0 v1 v2 l pl, pl_from_points (vS v0) (vS v1) (vS v2) = (true, plane_lift pl) ->
  intersect_ray_polygon (ray_lift r) (map vS (v0 :: v1 :: v2 :: l)) = intersect_ray_polygon_plane (ray_lift r) (plane_lift pl) (map vS (v0 :: v1 :: v2 :: l)).
Proof. exact ray_polygon_three. Qed.
Theorem C59_ray_polygon_few_points : forall r (l : list (list XR)) , (length l < 3)%nat -> intersect_ray_polygon r l = Ret None.
Proof. exact few_points. Qed.

(** A point in a triangle, and one outside. *)
Definition triangle : list (list R) := [[0; 0; 5]; [4; 0; 5]; [0; 4; 5]].
Lemma triangle_cases : forall i, ((i mod 3 = 0)%nat /\ vertex triangle i = [0; 0; 5] /\ vertex triangle (S i) = [4; 0; 5])
  \/ ((i mod 3 = 1)%nat /\ vertex triangle i = [4; 0; 5] /\ vertex triangle (S i) = [0; 4; 5])
  \/ ((i mod 3 = 2)%nat /\ vertex triangle i = [0; 4; 5] /\ vertex triangle (S i) = [0; 0; 5]).
Proof.
  intros i. unfold vertex. change (length triangle) with 3%nat.
  assert (L : (i mod 3 < 3)%nat) by (apply Nat.mod_upper_bound; lia).
  assert (M : (S i mod 3 = S (i mod 3) mod 3)%nat). { rewrite <- (Nat.add_1_r (i mod 3)), <- (Nat.add_1_r i). now rewrite Nat.add_mod_idemp_l by lia. }
  rewrite M. destruct (i mod 3)%nat as [|[|[|]]]; try lia; cbn; auto.
Qed.
Example ex_C59 : convex_polygon 1 [0; 0; 1] triangle
  /\ clear_height 2 triangle [1; 1; 5] /\ in_polygon 1 [0; 0; 1] triangle [1; 1; 5]
  /\ clear_height 2 triangle [3; 2; 5] /\ ~ in_polygon 1 [0; 0; 1] triangle [3; 2; 5] /\ clear_boundary 2 triangle [3; 2; 5].
Proof.
  assert (R1 : forall x, 1 <= x -> / 1000 < Rabs x) by (intros x X; rewrite Rabs_pos_eq; lra).
  assert (R2 : forall x, x <= -1 -> / 1000 < Rabs x) by (intros x X; rewrite Rabs_left; lra).
  split; [ | split; [ | split; [ | split; [ | split ] ] ] ].
  - split; [ now left | ]. split; [ cbn; lia | ]. split; [ repeat constructor | ]. split.
    + assert (H : forall i, rdot (vertex triangle i) [0; 0; 1] = 5) by (intros i; destruct (triangle_cases i) as [(_ & -> & _)|[(_ & -> & _)|(_ & -> & _)]]; cbn; ring).
      intros i j. now rewrite !H.
    + intros i k I K D1 D2. change (length triangle) with 3%nat in *. destruct i as [|[|[|]]]; try lia; destruct k as [|[|[|]]]; try lia; try (exfalso; apply D2; reflexivity); unfold turn, vertex; cbn; lra.
  - intros i. cbv zeta. unfold height. destruct (triangle_cases i) as [(_ & -> & ->)|[(_ & -> & ->)|(_ & -> & ->)]]; cbn; (split; [ lra | ]); right; left; first [ apply R1; lra | apply R2; lra ].
  - split; [ reflexivity | ]. split; [ unfold vertex; cbn; ring | ]. intros i. destruct (triangle_cases i) as [(_ & -> & ->)|[(_ & -> & ->)|(_ & -> & ->)]]; unfold turn; cbn; lra.
  - intros i. cbv zeta. unfold height. destruct (triangle_cases i) as [(_ & -> & ->)|[(_ & -> & ->)|(_ & -> & ->)]]; cbn; (split; [ lra | ]); right; left; first [ apply R1; lra | apply R2; lra ].
  - intros (_ & _ & I). specialize (I 1%nat). unfold turn, vertex in I. cbn in I. lra.
  - intros q (i & t & T & ->). destruct (triangle_cases i) as [(_ & -> & ->)|[(_ & -> & ->)|(_ & -> & ->)]]; unfold across, height, rlerp; cbn.
    + right. apply R2. lra.
    + destruct (Rle_dec t (2 / 5)) as [H|H]; [ right | left ]; rewrite Rabs_left; lra.
    + left. apply R2. lra.
Qed.
(** A polygon with a notch: [0; 0; 5] is inside and [0; -2; 5] in the notch, between vertices. *)
Definition arrow : list (list R) := [[-4; -3; 5]; [0; -1; 5]; [4; -4; 5]; [0; 6; 5]].
Lemma arrow_cases : forall i, (vertex arrow i = [-4; -3; 5] /\ vertex arrow (S i) = [0; -1; 5])
  \/ (vertex arrow i = [0; -1; 5] /\ vertex arrow (S i) = [4; -4; 5])
  \/ (vertex arrow i = [4; -4; 5] /\ vertex arrow (S i) = [0; 6; 5])
  \/ (vertex arrow i = [0; 6; 5] /\ vertex arrow (S i) = [-4; -3; 5]).
Proof.
  intros i. unfold vertex. change (length arrow) with 4%nat.
  assert (L : (i mod 4 < 4)%nat) by (apply Nat.mod_upper_bound; lia).
  assert (M : (S i mod 4 = S (i mod 4) mod 4)%nat). { rewrite <- (Nat.add_1_r (i mod 4)), <- (Nat.add_1_r i). now rewrite Nat.add_mod_idemp_l by lia. }
  rewrite M. destruct (i mod 4)%nat as [|[|[|[|]]]]; try lia; cbn; auto.
Qed.
Example ex_C59_winding : plane_polygon [0; 0; 1] arrow /\ (forall s, ~ convex_polygon s [0; 0; 1] arrow)
  /\ forall p, p = [0; 0; 5] \/ p = [0; -2; 5] -> rdot p [0; 0; 1] = rdot (vertex arrow 0) [0; 0; 1] /\ clear_height 2 arrow p /\ clear_boundary 2 arrow p.
Proof.
  assert (R1 : forall x, 0.1 <= x -> / 1000 < Rabs x) by (intros x X; rewrite Rabs_pos_eq; lra).
  assert (R2 : forall x, x <= -0.1 -> / 1000 < Rabs x) by (intros x X; rewrite Rabs_left; lra).
  split; [ | split ].
  - split; [ cbn; lia | ]. split; [ repeat constructor | ].
    assert (H : forall i, rdot (vertex arrow i) [0; 0; 1] = 5) by (intros i; destruct (arrow_cases i) as [[-> _]|[[-> _]|[[-> _]|[-> _]]]]; cbn; ring).
    intros i j. now rewrite !H.
  - intros s (HS & _ & _ & _ & T). assert (T0 := T 0%nat 2%nat). assert (T1 := T 2%nat 0%nat). cbn in T0, T1. specialize (T0 ltac:(lia) ltac:(lia) ltac:(lia) ltac:(lia)). specialize (T1 ltac:(lia) ltac:(lia) ltac:(lia) ltac:(lia)).
    unfold turn, vertex in T0, T1. cbn in T0, T1. lra.
  - intros p HP. split; [ | split ].
    + unfold vertex. destruct HP as [-> | ->]; cbn; ring.
    + intros i. cbv zeta. unfold height. destruct HP as [-> | ->]; destruct (arrow_cases i) as [[-> ->]|[[-> ->]|[[-> ->]|[-> ->]]]]; cbn; (split; [ lra | ]); right; first [ left; first [ apply R1; lra | apply R2; lra ] | right; first [ apply R1; lra | apply R2; lra ] ].
    + intros q (i & t & T & ->). destruct HP as [-> | ->]; destruct (arrow_cases i) as [[-> ->]|[[-> ->]|[[-> ->]|[-> ->]]]]; unfold across, height, rlerp; cbn.
      * right. apply R2. lra.
      * right. apply R2. lra.
      * destruct (Rle_dec t 0.3); [ right; apply R2; lra | ]. destruct (Rle_dec 0.5 t); [ right; apply R1; lra | left; apply R1; lra ].
      * destruct (Rle_dec t 0.5); [ right; apply R1; lra | ]. left; apply R2; lra.
      * destruct (Rle_dec t 0.4); [ right; apply R2; lra | ]. destruct (Rle_dec 0.6 t); [ right; apply R1; lra | left; apply R2; lra ].
      * destruct (Rle_dec t 0.3); [ right; apply R1; lra | left; apply R1; lra ].
      * destruct (Rle_dec t 0.15); [ right; apply R2; lra | ]. destruct (Rle_dec 0.25 t); [ right; apply R1; lra | left; apply R1; lra ].
      * destruct (Rle_dec t 0.8); [ right; apply R1; lra | left; apply R2; lra ].
Qed.
Print Assumptions C59_winding_axis_partial.
Print Assumptions C59_winding_normal_partial.
Print Assumptions C59_winding_partial.
Print Assumptions C59_ray_winding_partial.
Print Assumptions C59_contains_axis_partial.
Print Assumptions C59_contains_normal_partial.
Print Assumptions C59_contains_partial.
Print Assumptions C59_level_refuted.
Print Assumptions C59_ray_polygon_partial.
Print Assumptions C59_ray_polygon_points.
Print Assumptions C59_ray_polygon_few_points.
