(** C100: moving everything by the same rigid motion does not change what is measured. *)
From Coq Require Import ZArith Reals List Bool Lra Lia.
From Verif Require Import Ops M_scalar M_vec M_mat M_matext M_geom M_dist M_intersect Inst_XR S_vec S_mat S_affine S_geom S_dist S_intersect S_rigid.
From Verif Require Import P_vec P_line P_plane P_rigid2 P_rigid3 P_rigid4 P_rigid5.
Import ListNotations.
Local Open Scope R_scope.

(** Points and vectors. *)
Theorem C100_distance : forall n M, rigid n M -> forall p q, length p = n -> length q = n ->
  let T x := m_mul_p (S n) (mS M) (vS x) in
  v_distance (T p) (T q) = v_distance (vS p) (vS q) /\ v_squared_distance (T p) (T q) = v_squared_distance (vS p) (vS q).
Proof. exact rg_distance. Qed.
Theorem C100_vectors : forall n M, rigid n M -> forall v w, length v = n -> length w = n ->
  let T x := m_mul_p (S n) (strip_translation (S n) (mS M)) (vS x) in
  v_dot (T v) (T w) = v_dot (vS v) (vS w) /\ v_length (T v) = v_length (vS v)
  /\ forall eps, v_is_parallel (T v) (T w) eps = v_is_parallel (vS v) (vS w) eps.
Proof. exact rg_vectors. Qed.
Theorem C100_is_colinear : forall n M, rigid n M -> forall a b c e, length a = n -> length b = n -> length c = n -> 0 <= e ->
  let T x := m_mul_p (S n) (mS M) (vS x) in
  v_is_colinear (T a) (T b) (T c) (Some e) = v_is_colinear (vS a) (vS b) (vS c) (Some e).
Proof. exact rg_is_colinear. Qed.
Theorem C100_is_between : forall n M, rigid n M -> forall p s e, length p = n -> length s = n -> length e = n ->
  let T x := m_mul_p (S n) (mS M) (vS x) in
  v_is_between (T p) (T s) (T e) = v_is_between (vS p) (vS s) (vS e).
Proof. exact rg_is_between. Qed.
Theorem C100_average : forall n M, rigid n M -> forall l, l <> [] -> Forall (fun v => length v = n) l ->
  let T x := m_mul_p (S n) (mS M) (vS x) in
  exists c, v_average (map vS l) = Ret (vS c) /\ v_average (map T l) = Ret (T c).
Proof. exact rg_average. Qed.
(** In space, for motions that keep the orientation: the signed angle. *)
Theorem C100_measure_angle : forall M, rigid 3 M -> forall v axis up, length v = 3%nat -> length axis = 3%nat -> length up = 3%nat -> keeps_orientation M ->
  let T x := m_mul_p 4 (strip_translation 4 (mS M)) (vS x) in
  measure_angle (T v) (T axis) (T up) = measure_angle (vS v) (vS axis) (vS up).
Proof. exact rg_measure_angle. Qed.

(** Distances of objects: the distance, the positions and whether they count as parallel. *)
Theorem C100_ray_point : forall n M, rigid n M -> forall r p, is_ray n r -> length p = n ->
  let r' := ray_transform (S n) (ray_lift r) (mS M) in let p' := m_mul_p (S n) (mS M) (vS p) in
  ray_point_sqdist r' p' = ray_point_sqdist (ray_lift r) (vS p) /\ ray_point_dist r' p' = ray_point_dist (ray_lift r) (vS p)
  /\ ray_point_status r' p' = ray_point_status (ray_lift r) (vS p).
Proof. exact rg_ray_point. Qed.
Theorem C100_ray_ray : forall n M, rigid n M -> forall l r, is_ray n l -> is_ray n r ->
  let l' := ray_transform (S n) (ray_lift l) (mS M) in let r' := ray_transform (S n) (ray_lift r) (mS M) in
  ray_ray_sqdist l' r' = ray_ray_sqdist (ray_lift l) (ray_lift r) /\ ray_ray_dist l' r' = ray_ray_dist (ray_lift l) (ray_lift r).
Proof. exact rg_ray_ray. Qed.
Theorem C100_ray_line : forall n M, rigid n M -> forall r l, is_ray n r -> is_line n l ->
  let r' := ray_transform (S n) (ray_lift r) (mS M) in let l' := ln_transform (S n) (line_lift l) (mS M) in
  ray_line_sqdist r' l' = ray_line_sqdist (ray_lift r) (line_lift l) /\ ray_line_dist r' l' = ray_line_dist (ray_lift r) (line_lift l).
Proof. exact rg_ray_line. Qed.
Theorem C100_segment_point : forall n M, rigid n M -> forall s p, is_segment n s -> length p = n ->
  let s' := seg_transform (S n) (seg_lift s) (mS M) in let p' := m_mul_p (S n) (mS M) (vS p) in
  pd_distance (seg_point_sqdist s' p') = pd_distance (seg_point_sqdist (seg_lift s) (vS p))
  /\ pd_distance (seg_point_dist s' p') = pd_distance (seg_point_dist (seg_lift s) (vS p))
  /\ seg_length s' = seg_length (seg_lift s).
Proof. exact rg_seg_point. Qed.
(** Missing: segments whose ends are exchanged by the motion, because the smaller end comes first. *)
Theorem C100_ray_segment_partial : forall n M, rigid n M -> forall r s, is_ray n r -> is_segment n s ->
  let T x := m_mul_p (S n) (mS M) (vS x) in
  let r' := ray_transform (S n) (ray_lift r) (mS M) in let s' := seg_transform (S n) (seg_lift s) (mS M) in
  s' = Seg (T (seg_start s)) (T (seg_end s)) ->
  ray_seg_sqdist r' s' = ray_seg_sqdist (ray_lift r) (seg_lift s) /\ ray_seg_dist r' s' = ray_seg_dist (ray_lift r) (seg_lift s).
Proof. exact rg_ray_seg. Qed.
Theorem C100_ray_segment_refuted : exists M r s, rigid 3 M /\ is_ray 3 r /\ is_segment 3 s /\ / 1000 < area2 (rsub (seg_end s) (seg_start s)) (ray_dir r)
  /\ ld_distance (ray_seg_sqdist (ray_lift r) (seg_lift s)) = Some (/ 10000)
  /\ ld_distance (ray_seg_sqdist (ray_transform 4 (ray_lift r) (mS M)) (seg_transform 4 (seg_lift s) (mS M))) = Some 0.
Proof. exact rg_ray_seg_refuted. Qed.
Theorem C100_segment_contains_partial : forall n M, rigid n M -> forall s p m, is_segment n s -> length p = n ->
  let T x := m_mul_p (S n) (mS M) (vS x) in let s' := seg_transform (S n) (seg_lift s) (mS M) in
  s' = Seg (T (seg_start s)) (T (seg_end s)) -> seg_contains s' (T p) m = seg_contains (seg_lift s) (vS p) m.
Proof. exact rg_seg_contains. Qed.
Theorem C100_segment_contains_refuted : exists M s p d, rigid 3 M /\ is_segment 3 s /\ length p = 3%nat /\ seg_start s <> seg_end s /\ 0 <= d
  /\ seg_contains (seg_lift s) (vS p) (Some d) = true
  /\ seg_contains (seg_transform 4 (seg_lift s) (mS M)) (m_mul_p 4 (mS M) (vS p)) (Some d) = false.
Proof. exact rg_contains_refuted. Qed.

(** Planes. *)
Theorem C100_plane_point : forall n M, rigid n M -> forall p q eps, is_plane n p -> length q = n ->
  let p' := pl_transform (S n) (plane_lift p) (mS M) in let q' := m_mul_p (S n) (mS M) (vS q) in
  pl_point_distance p' q' = pl_point_distance (plane_lift p) (vS q)
  /\ pl_point_status p' q' eps = pl_point_status (plane_lift p) (vS q) eps
  /\ exists f, pl_project_point (plane_lift p) (vS q) = vS f /\ pl_project_point p' q' = m_mul_p (S n) (mS M) (vS f).
Proof. exact rg_plane_point. Qed.
(** The plane through three points moves with them; it is flipped by a reflection. *)
Theorem C100_from_points : forall M, rigid 3 M -> forall p1 p2 p3, length p1 = 3%nat -> length p2 = 3%nat -> length p3 = 3%nat ->
  let T x := m_mul_p 4 (mS M) (vS x) in
  let x := pl_from_points (vS p1) (vS p2) (vS p3) in let x' := pl_from_points (T p1) (T p2) (T p3) in
  fst x' = fst x
  /\ (fst x = true -> keeps_orientation M -> snd x' = pl_transform 4 (snd x) (mS M))
  /\ (fst x = true -> ~ keeps_orientation M -> snd x' = pl_flip (pl_transform 4 (snd x) (mS M))).
Proof. exact rg_from_points'. Qed.

(** Intersections: the distance along the ray or line. *)
Theorem C100_ray_plane : forall n M, rigid n M -> forall r p, is_ray n r -> is_plane n p ->
  intersect_ray_plane (ray_transform (S n) (ray_lift r) (mS M)) (pl_transform (S n) (plane_lift p) (mS M)) = intersect_ray_plane (ray_lift r) (plane_lift p).
Proof. exact rg_ray_plane. Qed.
Theorem C100_line_plane : forall n M, rigid n M -> forall l p, is_line n l -> is_plane n p ->
  intersect_line_plane (ln_transform (S n) (line_lift l) (mS M)) (pl_transform (S n) (plane_lift p) (mS M)) = intersect_line_plane (line_lift l) (plane_lift p).
Proof. exact rg_line_plane. Qed.
Theorem C100_ray_triangle : forall M, rigid 3 M -> forall r p1 p2 p3, is_ray 3 r -> length p1 = 3%nat -> length p2 = 3%nat -> length p3 = 3%nat ->
  let T x := m_mul_p 4 (mS M) (vS x) in
  intersect_ray_triangle (ray_transform 4 (ray_lift r) (mS M)) (T p1) (T p2) (T p3) = intersect_ray_triangle (ray_lift r) (vS p1) (vS p2) (vS p3).
Proof. exact rg_ray_triangle. Qed.
Theorem C100_ray_sphere : forall n M, rigid n M -> forall r c rad, is_ray n r -> length c = n ->
  intersect_ray_sphere (ray_transform (S n) (ray_lift r) (mS M)) (m_mul_p (S n) (mS M) (vS c)) rad = intersect_ray_sphere (ray_lift r) (vS c) rad.
Proof. exact rg_ray_sphere. Qed.
Theorem C100_plane_plane : forall M, rigid 3 M -> forall p1 p2, is_plane 3 p1 -> is_plane 3 p2 -> / 1000 < plane_sine p1 p2 ->
  exists l l', intersect_plane_plane (plane_lift p1) (plane_lift p2) = line_lift l /\ is_line 3 l
    /\ intersect_plane_plane (pl_transform 4 (plane_lift p1) (mS M)) (pl_transform 4 (plane_lift p2) (mS M)) = line_lift l' /\ is_line 3 l'
    /\ forall q, length q = 3%nat -> (on_line l q <-> on_line l' (raffine 3 M q)).
Proof. exact rg_plane_plane. Qed.

(** A turn about the z axis with a move, and a reflection. *)
Example C100_ex : let M := [[3 / 5; 4 / 5; 0; 0]; [- (4 / 5); 3 / 5; 0; 0]; [0; 0; 1; 0]; [1; 2; 3; 1]] in
  rigid 3 M /\ keeps_orientation M /\ raffine 3 M [5; 0; 0] = [4; 6; 3].
Proof.
  intros M. assert (I : forall x y z, raffine 3 M [x; y; z] = [3 / 5 * x - 4 / 5 * y + 1; 4 / 5 * x + 3 / 5 * y + 2; z + 3]).
  { intros. unfold raffine, M, ent. cbn [seq map Rsum nth]. repeat (apply f_equal2; [ field | ]). reflexivity. }
  split; [ | split ].
  - split; [ | split; [ lra | ] ].
    + split; [ split; [ reflexivity | repeat constructor ] | ]. intros [|[|[|[|c]]]] Hc; try lia; reflexivity.
    + intros p q Hp Hq. vec3 p. vec3 q. rewrite !I, Rmult_1_l. unfold rdist, rnorm. f_equal. cbn. field.
  - unfold keeps_orientation, moved, rzero. cbn [repeat]. rewrite !I. cbn. lra.
  - rewrite I. repeat (apply f_equal2; [ lra | ]). reflexivity.
Qed.
Example C100_mirror_ex : let M := [[1; 0; 0; 0]; [0; 1; 0; 0]; [0; 0; -1; 0]; [0; 0; 0; 1]] in rigid 3 M /\ ~ keeps_orientation M.
Proof.
  intros M. assert (I : forall x y z, raffine 3 M [x; y; z] = [x; y; - z]).
  { intros. unfold raffine, M, ent. cbn [seq map Rsum nth]. repeat (apply f_equal2; [ field | ]). reflexivity. }
  split.
  - split; [ | split; [ lra | ] ].
    + split; [ split; [ reflexivity | repeat constructor ] | ]. intros [|[|[|[|c]]]] Hc; try lia; reflexivity.
    + intros p q Hp Hq. vec3 p. vec3 q. rewrite !I, Rmult_1_l. unfold rdist, rnorm. f_equal. cbn. ring.
  - unfold keeps_orientation, moved, rzero. cbn [repeat]. rewrite !I. cbn. lra.
Qed.
Example C100_objects_ex : is_ray 3 (Ray [1; 2; 3] [3 / 5; 4 / 5; 0]) /\ is_line 3 (Ln [1; 2; 3] [0; 4 / 5; 3 / 5]) /\ is_plane 3 (Pl 7 [0; 3 / 5; 4 / 5])
  /\ is_segment 3 (Seg [1; 2; 3] [4; 5; 6]) /\ / 1000 < plane_sine (Pl 7 [0; 3 / 5; 4 / 5]) (Pl 5 [0; 0; 1]).
Proof.
  split; [ split; [ reflexivity | split; [ reflexivity | simpl; lra ] ] | ]. split; [ split; [ reflexivity | split; [ reflexivity | simpl; lra ] ] | ].
  split; [ split; [ reflexivity | simpl; lra ] | ]. split; [ split; reflexivity | ].
  unfold plane_sine, rnorm. cbn [rcross rdot pl_normal]. apply Rlt_le_trans with (sqrt (9 / 25)); [ | right; f_equal; lra ].
  replace (9 / 25) with (3 / 5 * (3 / 5)) by lra. rewrite sqrt_square; lra.
Qed.
(** A segment whose ends are not exchanged. *)
Example C100_order_ex : let M := [[3 / 5; 4 / 5; 0; 0]; [- (4 / 5); 3 / 5; 0; 0]; [0; 0; 1; 0]; [1; 2; 3; 1]] in
  let s := Seg [0; 0; 0] [5; 0; 0] in let T x := m_mul_p 4 (mS M) (vS x) in
  seg_transform 4 (seg_lift s) (mS M) = Seg (T (seg_start s)) (T (seg_end s)).
Proof.
  intros M s T. assert (A := proj1 (proj1 C100_ex)). fold M in A. unfold seg_transform, seg_make. unfold T. cbn [seg_start seg_end seg_lift s].
  rewrite !(P_affine.X_affine 3 M) by (exact A || reflexivity).
  assert (I : forall x y z, raffine 3 M [x; y; z] = [3 / 5 * x - 4 / 5 * y + 1; 4 / 5 * x + 3 / 5 * y + 2; z + 3]).
  { intros. unfold raffine, M, ent. cbn [seq map Rsum nth]. repeat (apply f_equal2; [ field | ]). reflexivity. }
  rewrite !I. match goal with |- context [v_lt (vS (?a :: ?u)) (vS (?b :: ?v))] => rewrite (proj1 (lt_first a b u v ltac:(lra))) end. reflexivity.
Qed.
Print Assumptions C100_distance.
Print Assumptions C100_vectors.
Print Assumptions C100_is_colinear.
Print Assumptions C100_is_between.
Print Assumptions C100_average.
Print Assumptions C100_measure_angle.
Print Assumptions C100_ray_point.
Print Assumptions C100_ray_ray.
Print Assumptions C100_ray_line.
Print Assumptions C100_segment_point.
Print Assumptions C100_ray_segment_partial.
Print Assumptions C100_ray_segment_refuted.
Print Assumptions C100_segment_contains_partial.
Print Assumptions C100_segment_contains_refuted.
Print Assumptions C100_plane_point.
Print Assumptions C100_from_points.
Print Assumptions C100_ray_plane.
Print Assumptions C100_line_plane.
Print Assumptions C100_ray_triangle.
Print Assumptions C100_ray_sphere.
Print Assumptions C100_plane_plane.
