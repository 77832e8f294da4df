(** Final theorems: segments, lines, rays and planes (C45-C51, C73). *)
From Coq Require Import ZArith Reals List Bool Lia Lra.
From Flocq Require Import Core BinarySingleNaN.
From Verif Require Import Ops M_scalar M_vec M_mat M_matext M_geom Inst_F Inst_XR Inst_conv S_order S_vec S_mat S_affine S_geom.
From Verif Require Import P_ord P_line P_seg P_plane.
Import ListNotations.
Local Open Scope R_scope.
Notation vS := (map (@Some R)).
Notation mS := (map (map (@Some R))).

Section IEEE.
Variables prec emax : Z.
Context {Hprec : FLX.Prec_gt_0 prec} {Hmax : Prec_lt_emax prec emax}.
Notation fl := (binary_float prec emax).

(** C45: construction sorts the two points, in the order of C01 and for all values including NaN. *)
Theorem C45_segment_sorted : forall (p q : list fl), length p = length q ->
  let s := seg_make p q in
  (s = Seg p q \/ s = Seg q p) /\ ~ vec_lt (seg_end s) (seg_start s) /\ v_le (seg_start s) (seg_end s) = true
  /\ seg_eq s (seg_make q p) = true.
Proof. exact seg_make_ok. Qed.
Theorem C45_segment_transform_sorted : forall n (s : segment fl) m,
  let a := m_mul_p (S n) m (seg_start s) in let b := m_mul_p (S n) m (seg_end s) in
  let t := seg_transform (S n) s m in
  (t = Seg a b \/ t = Seg b a) /\ ~ vec_lt (seg_end t) (seg_start t).
Proof. exact seg_transform_ok. Qed.
Theorem C45_segment_translate_sorted : forall (s : segment fl) d, length (seg_start s) = length d -> length (seg_end s) = length d ->
  let t := seg_translate s d in
  (t = Seg (v_add (seg_start s) d) (v_add (seg_end s) d) \/ t = Seg (v_add (seg_end s) d) (v_add (seg_start s) d))
  /\ ~ vec_lt (seg_end t) (seg_start t).
Proof. exact seg_translate_ok. Qed.
Theorem C45_segment_order : forall n (s t u : segment fl), seg_dim n s -> seg_dim n t -> seg_dim n u ->
  (seg_lt s t = true <-> vec_lt (seg_start s) (seg_start t)
      \/ (vec_eq (seg_start s) (seg_start t) /\ vec_lt (seg_end s) (seg_end t)))
  /\ (seg_eq s t = true <-> vec_eq (seg_start s) (seg_start t) /\ vec_eq (seg_end s) (seg_end t))
  /\ seg_lt s s = false
  /\ (seg_lt s t = true -> seg_lt t u = true -> seg_lt s u = true)
  /\ (seg_lt s t = false /\ seg_lt t s = false <-> seg_eq s t = true)
  /\ (seg_eq s t = true -> seg_lt s u = seg_lt t u /\ seg_lt u s = seg_lt u t).
Proof. exact seg_order. Qed.
(** C49: flipping a plane exchanges its sides without any error. *)
Theorem C49_plane_flip : forall (p : plane fl) (q : list fl) (eps : fl), o_lt eps (cst 0) = false ->
  pl_point_status (pl_flip p) q eps = opposite (pl_point_status p q eps).
Proof. exact (flip_status prec emax). Qed.
End IEEE.

(** C45: conversion to a format with more precision and range keeps the order of the end points,
    conversion to a narrower one does not. *)
Theorem C45_segment_convert_partial : forall p1 e1 p2 e2 : Z,
  forall (Hp1 : FLX.Prec_gt_0 p1) (Hm1 : Prec_lt_emax p1 e1) (Hp2 : FLX.Prec_gt_0 p2) (Hm2 : Prec_lt_emax p2 e2),
  (p1 <= p2)%Z -> (e1 <= e2)%Z -> forall s : segment (binary_float p1 e1),
  length (seg_start s) = length (seg_end s) -> ~ vec_lt (seg_end s) (seg_start s) ->
  let t := seg_convert (F_conv p2 e2 Hp2 Hm2) s in ~ vec_lt (seg_end t) (seg_start t).
Proof. intros p1 e1 p2 e2 Hp1 Hm1 Hp2 Hm2. exact (seg_convert_ok p1 e1 p2 e2). Qed.
Theorem C45_segment_convert_refuted : exists s : segment double,
  s = seg_make (seg_start s) (seg_end s) /\ ~ vec_lt (seg_end s) (seg_start s)
  /\ let t := seg_convert to_single s in vec_lt (seg_end t) (seg_start t).
Proof. exact seg_convert_refuted. Qed.

(** C46 *)
Theorem C46_contains_middle_partial : forall n s p q d, is_segment n s -> length p = n -> seg_start s <> seg_end s -> 0 <= d ->
  on_seg s q -> rdot (rsub p q) (rsub (seg_end s) (seg_start s)) = 0 ->
  (seg_contains (seg_lift s) (vS p) (Some d) = true <-> within s p d).
Proof. exact contains_middle. Qed.
Theorem C46_contains_sound_partial : forall n s p d, is_segment (S n) s -> length p = S n -> 0 <= d ->
  seg_contains (seg_lift s) (vS p) (Some d) = true -> within s p (sqrt 2 * d).
Proof. exact contains_sound. Qed.
Theorem C46_contains_zero : forall n s p, is_segment (S n) s -> length p = S n -> seg_start s <> seg_end s ->
  (seg_contains (seg_lift s) (vS p) (Some 0) = true <-> on_seg s p).
Proof. exact contains_zero. Qed.
Theorem C46_contains_own_points : forall n s p d, is_segment (S n) s -> length p = S n -> seg_start s <> seg_end s -> 0 <= d ->
  on_seg s p -> seg_contains (seg_lift s) (vS p) (Some d) = true.
Proof. exact contains_points. Qed.
Theorem C46_contains_refuted_near : exists s p d, is_segment 3 s /\ length p = 3%nat /\ seg_start s <> seg_end s /\ 0 <= d
  /\ within s p d /\ seg_contains (seg_lift s) (vS p) (Some d) = false.
Proof. exact contains_refuted_near. Qed.
Theorem C46_contains_refuted_far : exists s p d, is_segment 3 s /\ length p = 3%nat /\ seg_start s <> seg_end s /\ 0 <= d
  /\ ~ within s p d /\ seg_contains (seg_lift s) (vS p) (Some d) = true.
Proof. exact contains_refuted_far. Qed.
Theorem C46_contains_refuted_degenerate : forall n s p d, is_segment (S n) s -> length p = S n -> seg_start s = seg_end s ->
  seg_contains (seg_lift s) (vS p) (Some d) = false.
Proof. exact contains_degenerate. Qed.

(** C47 *)
Theorem C47_canonical : forall n l, is_line n l ->
  exists c, ln_canonical (line_lift l) = line_lift c /\ is_line n c
    /\ (forall q, on_line c q <-> on_line l q)
    /\ (forall m, is_line n m -> (forall q, on_line m q <-> on_line l q) -> ln_canonical (line_lift m) = line_lift c)
    /\ ln_canonical (line_lift c) = line_lift c.
Proof. exact canonical_ok. Qed.
Theorem C47_equality : forall n l m, is_line n l -> is_line n m ->
  (ln_eq (line_lift l) (line_lift m) = true <-> forall q, on_line l q <-> on_line m q)
  /\ ln_ne (line_lift l) (line_lift m) = negb (ln_eq (line_lift l) (line_lift m)).
Proof. exact ln_eq_ok. Qed.
Theorem C47_is_equal : forall l m, length (ln_point l) = length (ln_point m) -> length (ln_dir l) = length (ln_dir m) ->
  (ln_is_equal (line_lift l) (line_lift m) (Some 0) = true <-> l = m).
Proof. exact ln_is_equal_ok. Qed.

(** C48 *)
Theorem C48_projection : forall n l p, is_line n l -> length p = n ->
  exists q t, al_project_point (vS (ln_point l)) (vS (ln_dir l)) (vS p) = vS q
    /\ al_distance_to_projected_point (vS (ln_point l)) (vS (ln_dir l)) (vS p) = Some t
    /\ al_point_at_distance (vS (ln_point l)) (vS (ln_dir l)) (Some t) = vS q
    /\ nearest (on_line l) p q /\ q = rpoint (ln_point l) (ln_dir l) t
    /\ (forall q', nearest (on_line l) p q' -> q' = q)
    /\ (forall s, al_distance_to_projected_point (vS (ln_point l)) (vS (ln_dir l)) (vS (rpoint (ln_point l) (ln_dir l) s)) = Some s).
Proof. exact project_ok. Qed.
Theorem C48_ray_point_status : forall n r t, is_ray n r ->
  let q := rpoint (ray_origin r) (ray_dir r) t in
  (ray_point_status (ray_lift r) (vS q) = Above <-> / 10000 < t)
  /\ (ray_point_status (ray_lift r) (vS q) = Below <-> t < - / 10000)
  /\ (ray_point_status (ray_lift r) (vS q) = Inside <-> - / 10000 <= t <= / 10000).
Proof. exact ray_status_param. Qed.
(** A line and a ray that meet the hypotheses, and a point beside them. *)
Example ex_C48_case : is_line 3 (Ln [1; -2; 7] [3 / 5; 0; - (4 / 5)]) /\ is_ray 3 (Ray [1; -2; 7] [3 / 5; 0; - (4 / 5)]) /\ length [4; 9; -6] = 3%nat
  /\ rpoint [1; -2; 7] [3 / 5; 0; - (4 / 5)] 10 = [7; -2; -1].
Proof.
  assert (U : unit_vec 3 [3 / 5; 0; - (4 / 5)]) by (split; [reflexivity|cbn; lra]). split; [split; [reflexivity|exact U]|]. split; [split; [reflexivity|exact U]|]. split; [reflexivity|]. cbn. repeat f_equal; lra.
Qed.

(** C49 *)
Theorem C49_plane_point : forall n p q eps, is_plane n p -> length q = n -> 0 <= eps ->
  exists t f, pl_point_distance (plane_lift p) (vS q) = Some t
    /\ pl_project_point (plane_lift p) (vS q) = vS f
    /\ nearest (on_plane n p) q f /\ (forall f', nearest (on_plane n p) q f' -> f' = f)
    /\ q = rpoint f (pl_normal p) t /\ Rabs t = rdist q f
    /\ (pl_point_status (plane_lift p) (vS q) (Some eps) = Above <-> eps < t)
    /\ (pl_point_status (plane_lift p) (vS q) (Some eps) = Below <-> t < - eps)
    /\ (pl_point_status (plane_lift p) (vS q) (Some eps) = Inside <-> - eps <= t <= eps).
Proof. exact plane_point_ok. Qed.
Theorem C49_plane_anchor : forall n p, is_plane n p -> exists a, pl_anchor (plane_lift p) = vS a
  /\ nearest (on_plane n p) (rzero n) a /\ Rabs (pl_dist p) = rnorm a.
Proof. exact anchor_ok. Qed.
Theorem C49_plane_from_anchor : forall n a v, length a = n -> length v = n ->
  exists p, pl_make (vS a) (vS v) = plane_lift p /\ pl_normal p = v /\ on_plane n p a.
Proof. exact make_plane_ok. Qed.
Theorem C49_plane_project_along : forall n p q d, is_plane n p -> length q = n -> length d = n ->
  (/ 1000 < Rabs (rdot d (pl_normal p)) ->
     exists f s, pl_project_point_dir (plane_lift p) (vS q) (vS d) = vS f /\ on_plane n p f /\ f = rpoint q d s)
  /\ (Rabs (rdot d (pl_normal p)) <= / 1000 -> pl_project_point_dir (plane_lift p) (vS q) (vS d) = repeat None n).
Proof. exact project_dir_ok. Qed.
Theorem C49_plane_project_vector : forall n p w, is_plane n p -> length w = n ->
  exists f, pl_project_vector (plane_lift p) (vS w) = vS f /\ rdot f (pl_normal p) = 0
    /\ f = rsub w (rscale (rdot w (pl_normal p)) (pl_normal p)).
Proof. exact project_vector_ok. Qed.
Theorem C49_plane_at : forall n p q axis, length (pl_normal p) = S n -> length q = n -> (axis <= n)%nat ->
  (nth axis (pl_normal p) 0 <> 0 -> exists t, pl_at (plane_lift p) (vS q) axis = Some t
     /\ forall s, on_plane (S n) p (insert axis s q) <-> s = t)
  /\ (nth axis (pl_normal p) 0 = 0 -> pl_at (plane_lift p) (vS q) axis = Some 0).
Proof. exact at_ok. Qed.

(** C50 *)
Theorem C50_plane_transform_partial : forall n p M k, is_plane n p -> similarity n M k ->
  exists p', pl_transform (S n) (plane_lift p) (mS M) = plane_lift p' /\ is_plane n p'
    /\ (forall q, length q = n -> (on_plane n p q <-> on_plane n p' (raffine n M q)))
    /\ forall q, length q = n -> rdot (raffine n M q) (pl_normal p') - pl_dist p' = k * (rdot q (pl_normal p) - pl_dist p).
Proof. exact pl_transform_ok. Qed.
Theorem C50_plane_transform_refuted : exists (f : list R) (p p' : plane R) (q q' : list R),
  Forall (fun x => 0 < x) f /\ is_plane 3 p /\ on_plane 3 p q
  /\ pl_transform 4 (plane_lift p) (scaling_matrix (vS f)) = plane_lift p'
  /\ m_mul_p 4 (scaling_matrix (vS f)) (vS q) = vS q' /\ length q' = 3%nat /\ ~ on_plane 3 p' q'.
Proof. exact pl_transform_refuted. Qed.

(** C51 *)
Theorem C51_from_points : forall p1 p2 p3, length p1 = 3%nat -> length p2 = 3%nat -> length p3 = 3%nat ->
  let c := cross_of p1 p2 p3 in
  let s := rnorm (rsub p3 p1) * rnorm (rsub p2 p1) in
  (s <> 0 /\ / 100000000 * s <= rnorm c ->
     exists p, pl_from_points (vS p1) (vS p2) (vS p3) = (true, plane_lift p) /\ is_plane 3 p
       /\ on_plane 3 p p1 /\ on_plane 3 p p2 /\ on_plane 3 p p3
       /\ exists k, 0 < k /\ c = rscale k (pl_normal p))
  /\ (s = 0 \/ rnorm c < / 100000000 * s ->
      pl_from_points (vS p1) (vS p2) (vS p3) = (false, Pl (Some 0) (vS (rzero 3)))).
Proof. exact from_points_ok. Qed.
Theorem C51_from_points_collinear : forall p1 p2 p3, length p1 = 3%nat -> length p2 = 3%nat -> length p3 = 3%nat ->
  collinear p1 p2 p3 -> pl_from_points (vS p1) (vS p2) (vS p3) = (false, Pl (Some 0) (vS (rzero 3))).
Proof. exact from_points_collinear. Qed.
Theorem C51_from_points_range : forall (l : list (list XR)), 
  pl_from_points_range l = match l with p1 :: p2 :: p3 :: _ => pl_from_points p1 p2 p3 | _ => (false, Pl (Some 0) (vS (rzero 3))) end.
Proof. exact from_points_range_ok. Qed.

(** C73 *)
Theorem C73_line_transform : forall n l M, is_line n l -> affine n M -> keeps n M (ln_dir l) ->
  exists l', ln_transform (S n) (line_lift l) (mS M) = line_lift l' /\ is_line n l'
    /\ forall q, on_line l' q <-> exists q0, on_line l q0 /\ q = raffine n M q0.
Proof. exact ln_transform_ok. Qed.
Theorem C73_ray_transform : forall n r M, is_ray n r -> affine n M -> keeps n M (ray_dir r) ->
  exists r', ray_transform (S n) (ray_lift r) (mS M) = ray_lift r' /\ is_ray n r' /\ ray_origin r' = raffine n M (ray_origin r)
    /\ forall q, on_ray r' q <-> exists q0, on_ray r q0 /\ q = raffine n M q0.
Proof. exact ray_transform_ok. Qed.
Theorem C73_segment_transform : forall n s M, is_segment n s -> affine n M ->
  exists s', seg_transform (S n) (seg_lift s) (mS M) = seg_lift s' /\ is_segment n s'
    /\ (forall q, on_seg s' q <-> exists q0, on_seg s q0 /\ q = raffine n M q0)
    /\ ~ vec_lt (vS (seg_end s')) (vS (seg_start s')).
Proof. exact seg_transform_image. Qed.

(** Non-vacuity *)
Example ex_C45 : v_lt [D 1 0; D 5 0] [D 1 0; D (-3) 0] = false /\ v_lt [D 1 0; D 5 0] [D 2 0; B754_nan] = true.
Proof. split; vm_compute; reflexivity. Qed.
Example ex_C45_convert : exists s : segment single, length (seg_start s) = length (seg_end s) /\ ~ vec_lt (seg_end s) (seg_start s)
  /\ (24 <= 53)%Z /\ (128 <= 1024)%Z.
Proof.
  exists (Seg [cst 1; cst 5] [cst 2; cst 3]). split; [ reflexivity | ]. split; [ | split; discriminate ].
  rewrite <- P_compare.v_compare_lt by reflexivity. apply Z.eqb_neq. vm_compute. reflexivity.
Qed.
Example ex_C46 : is_segment 3 (Seg [0; 0; 0] [3; 0; 0]) /\ on_seg (Seg [0; 0; 0] [3; 0; 0]) [1; 0; 0]
  /\ rdot (rsub [1; 2; 0] [1; 0; 0]) (rsub [3; 0; 0] [0; 0; 0]) = 0.
Proof.
  split; [ split; reflexivity | ]. split.
  - exists (/ 3). split; [ lra | ]. unfold rlerp, rpoint, radd, rscale, rsub. simpl. repeat (apply f_equal2; [ lra | ]). reflexivity.
  - unfold rsub. simpl. lra.
Qed.
Example ex_C47 : is_line 2 (Ln [1; 2] [3 / 5; 4 / 5]) /\ is_line 2 (Ln [4; 6] [- (3 / 5); - (4 / 5)])
  /\ on_line (Ln [1; 2] [3 / 5; 4 / 5]) [4; 6].
Proof.
  split; [ | split ].
  - split; [ reflexivity | ]. split; [ reflexivity | simpl; lra ].
  - split; [ reflexivity | ]. split; [ reflexivity | simpl; lra ].
  - exists 5. unfold rpoint, radd, rscale. simpl. repeat (apply f_equal2; [ lra | ]). reflexivity.
Qed.
Example ex_C49 : is_plane 3 (Pl 2 [3 / 5; 0; 4 / 5]) /\ on_plane 3 (Pl 2 [3 / 5; 0; 4 / 5]) (insert 1 7 [2; 1]).
Proof. unfold insert. split; [ split; [ reflexivity | simpl; lra ] | split; [ reflexivity | simpl; lra ] ]. Qed.
Example ex_C50 : similarity 1 [[-2; 0]; [5; 1]] 2 /\ is_plane 1 (Pl 3 [1]).
Proof.
  split; [ | split; [ reflexivity | simpl; lra ] ].
  split; [ | split; [ lra | ] ].
  - split; [ split; [ reflexivity | repeat constructor ] | ]. intros [|[|c]] H; [ reflexivity | reflexivity | lia ].
  - intros [|p [|]] [|q [|]] L1 L2; try discriminate. unfold rdist, rnorm, raffine, ent. cbn.
    replace ((0 + -2 * p + 5 - (0 + -2 * q + 5)) * (0 + -2 * p + 5 - (0 + -2 * q + 5)) + 0) with (Rsqr 2 * ((p - q) * (p - q) + 0)) by (unfold Rsqr; ring).
    assert (0 <= (p - q) * (p - q)) by apply Rle_0_sqr. rewrite sqrt_mult by (unfold Rsqr; lra). now rewrite sqrt_Rsqr by lra.
Qed.
Example ex_C51 : let c := cross_of [0; 0; 0] [0; 1; 0] [1; 0; 0] in
  rnorm c = 1 /\ rnorm (rsub [1; 0; 0] [0; 0; 0]) * rnorm (rsub [0; 1; 0] [0; 0; 0]) = 1 /\ c = [0; 0; 1].
Proof.
  assert (N : forall a, rdot a a = 1 -> rnorm a = 1) by (intros a E; unfold rnorm; rewrite E; apply sqrt_1).
  unfold cross_of, rsub. cbn [zip rcross]. cbv zeta. rewrite !N by (simpl; lra). repeat split; try lra.
  repeat (apply f_equal2; [ lra | ]). reflexivity.
Qed.
Example ex_C73 : is_ray 1 (Ray [7] [1]) /\ affine 1 [[-2; 0]; [5; 1]] /\ keeps 1 [[-2; 0]; [5; 1]] [1].
Proof.
  split; [ split; [ reflexivity | split; [ reflexivity | simpl; lra ] ] | ]. split.
  - split; [ split; [ reflexivity | repeat constructor ] | ]. intros [|[|c]] H; [ reflexivity | reflexivity | lia ].
  - unfold keeps, raffine, ent. cbn. intros H. injection H. lra.
Qed.

Print Assumptions C45_segment_sorted.
Print Assumptions C45_segment_transform_sorted.
Print Assumptions C45_segment_translate_sorted.
Print Assumptions C45_segment_order.
Print Assumptions C49_plane_flip.
Print Assumptions C45_segment_convert_partial.
Print Assumptions C45_segment_convert_refuted.
Print Assumptions C46_contains_middle_partial.
Print Assumptions C46_contains_sound_partial.
Print Assumptions C46_contains_zero.
Print Assumptions C46_contains_own_points.
Print Assumptions C46_contains_refuted_near.
Print Assumptions C46_contains_refuted_far.
Print Assumptions C46_contains_refuted_degenerate.
Print Assumptions C47_canonical.
Print Assumptions C47_equality.
Print Assumptions C47_is_equal.
Print Assumptions C48_projection.
Print Assumptions C48_ray_point_status.
Print Assumptions C49_plane_point.
Print Assumptions C49_plane_anchor.
Print Assumptions C49_plane_from_anchor.
Print Assumptions C49_plane_project_along.
Print Assumptions C49_plane_project_vector.
Print Assumptions C49_plane_at.
Print Assumptions C50_plane_transform_partial.
Print Assumptions C50_plane_transform_refuted.
Print Assumptions C51_from_points.
Print Assumptions C51_from_points_collinear.
Print Assumptions C51_from_points_range.
Print Assumptions C73_line_transform.
Print Assumptions C73_ray_transform.
Print Assumptions C73_segment_transform.
