(** Final theorems: intersections (C54 to C58). *)
From Coq Require Import ZArith Reals List Bool Lia Lra.
From Verif Require Import Ops M_scalar M_vec M_bbox M_geom M_intersect Inst_XR S_scalar S_vec S_geom S_intersect.
From Verif Require Import P_intersect P_torus.
Import ListNotations.
Local Open Scope R_scope.
Notation vS := (map (@Some R)).

(** C54. A ray that is not nearly parallel to a plane and does not start closely behind it. *)
Theorem C54_ray_plane_partial : forall n r p, length (ray_origin r) = n -> length (ray_dir r) = n -> is_plane n p ->
  / 1000 < Rabs (rdot (ray_dir r) (pl_normal p)) ->
  (forall t, - / 1000 <= t < 0 -> ~ on_plane n p (ray_at r t)) ->
  intersects (on_plane n p) r (intersect_ray_plane (ray_lift r) (plane_lift p)).
Proof. exact ray_plane_intersects. Qed.
Theorem C54_ray_plane_parallel_partial : forall n r p, length (ray_origin r) = n -> length (ray_dir r) = n -> is_plane n p ->
  rdot (ray_dir r) (pl_normal p) = 0 -> ~ on_plane n p (ray_origin r) ->
  intersects (on_plane n p) r (intersect_ray_plane (ray_lift r) (plane_lift p)).
Proof. exact ray_plane_parallel. Qed.
(** The result in all cases, and where it deviates: NaN for an angle with a sine up to 1/1000, and
    points up to 1/1000 behind the origin are accepted. *)
Theorem C54_ray_plane_result : forall n r p, length (ray_origin r) = n -> length (ray_dir r) = n -> is_plane n p ->
  let c := rdot (ray_dir r) (pl_normal p) in
  let x := intersect_ray_plane (ray_lift r) (plane_lift p) in
  (Rabs c <= / 1000 -> x = None)
  /\ (/ 1000 < Rabs c -> exists t, (forall t', on_plane n p (ray_at r t') <-> t' = t)
        /\ (t < - / 1000 -> x = None) /\ (- / 1000 <= t -> x = Some t)).
Proof. exact ray_plane_ok. Qed.
Theorem C54_line_plane_result : forall l p, length (ln_point l) = 3%nat -> length (ln_dir l) = 3%nat -> is_plane 3 p ->
  let c := rdot (ln_dir l) (pl_normal p) in
  let x := intersect_line_plane (line_lift l) (plane_lift p) in
  (Rabs c <= / 1000 -> x = None)
  /\ (/ 1000 < Rabs c -> exists t, x = Some t
        /\ forall t', on_plane 3 p (rpoint (ln_point l) (ln_dir l) t') <-> t' = t).
Proof. exact line_plane_ok. Qed.
Theorem C54_behind_refuted : exists r p t, is_ray 3 r /\ is_plane 3 p
  /\ intersect_ray_plane (ray_lift r) (plane_lift p) = Some t /\ t < 0.
Proof. exact ray_plane_behind_refuted. Qed.
Theorem C54_nearly_parallel_refuted : exists r p, is_plane 3 p /\ is_ray 3 r
  /\ hits (on_plane 3 p) r /\ intersect_ray_plane (ray_lift r) (plane_lift p) = None.
Proof. exact ray_plane_parallel_refuted. Qed.
(** C55. Missing: triangles for which the determinant is at most 1/1000; these are never hit. *)
Theorem C55_ray_triangle_partial : forall r p1 p2 p3, length (ray_origin r) = 3%nat -> length (ray_dir r) = 3%nat ->
  length p1 = 3%nat -> length p2 = 3%nat -> length p3 = 3%nat ->
  let a := rdot (rcross (ray_dir r) (rsub p3 p1)) (rsub p2 p1) in
  let x := intersect_ray_triangle (ray_lift r) (vS p1) (vS p2) (vS p3) in
  (Rabs a <= / 1000 -> x = None)
  /\ (/ 1000 < Rabs a -> intersects (in_triangle p1 p2 p3) r x
      /\ forall t t', in_triangle p1 p2 p3 (ray_at r t) -> in_triangle p1 p2 p3 (ray_at r t') -> t = t').
Proof. exact ray_triangle_ok. Qed.
Theorem C55_small_triangle_refuted : exists r p1 p2 p3, is_ray 3 r
  /\ length p1 = 3%nat /\ length p2 = 3%nat /\ length p3 = 3%nat /\ rcross (rsub p2 p1) (rsub p3 p1) = [0; 0; 9 / 10000]
  /\ rdot (ray_dir r) [0; 0; 1] = -1
  /\ first_hit (in_triangle p1 p2 p3) r 1 /\ intersect_ray_triangle (ray_lift r) (vS p1) (vS p2) (vS p3) = None.
Proof. exact ray_triangle_small_refuted. Qed.
(** C56. *)
Theorem C56_ray_box_outside : forall n r b, is_box n b -> length (ray_origin r) = n -> length (ray_dir r) = n ->
  ~ in_box (ray_origin r) (bb_min b) (bb_max b) ->
  let x := intersect_ray_bbox n (ray_lift r) (box_lift b) in
  intersects (on_surface b) r x /\ (x = None -> ~ hits (fun q => in_box q (bb_min b) (bb_max b)) r).
Proof. exact ray_bbox_outside. Qed.
(** Missing: a zero component of the direction, and an origin on the surface. *)
Theorem C56_ray_box_inside_partial : forall n r b, (0 < n)%nat -> is_box n b -> length (ray_origin r) = n -> length (ray_dir r) = n ->
  in_box (ray_origin r) (bb_min b) (bb_max b) -> (forall i, (i < n)%nat -> nth i (ray_dir r) 0 <> 0) ->
  exists t, intersect_ray_bbox n (ray_lift r) (box_lift b) = Some t /\ 0 <= t /\ on_surface b (ray_at r t)
    /\ (forall t', 0 <= t' <= t -> in_box (ray_at r t') (bb_min b) (bb_max b))
    /\ (forall t', t < t' -> ~ in_box (ray_at r t') (bb_min b) (bb_max b))
    /\ ((forall i, (i < n)%nat -> nth i (bb_min b) 0 < nth i (ray_origin r) 0 < nth i (bb_max b) 0) -> first_hit (on_surface b) r t).
Proof. exact ray_bbox_inside. Qed.
Theorem C56_zero_direction_refuted : exists r b, is_box 2 b /\ is_ray 2 r
  /\ first_hit (on_surface b) r 1 /\ intersect_ray_bbox 2 (ray_lift r) (box_lift b) = None.
Proof. exact ray_bbox_zero_refuted. Qed.
Theorem C56_origin_on_surface_refuted : exists r b t, is_box 1 b /\ is_ray 1 r /\ on_surface b (ray_origin r)
  /\ intersect_ray_bbox 1 (ray_lift r) (box_lift b) = Some t /\ 0 < t.
Proof. exact ray_bbox_boundary_refuted. Qed.
(** C57. Missing: an origin on the sphere. *)
Theorem C57_ray_sphere_partial : forall r c rad, is_ray (length c) r -> 0 <= rad -> ~ on_sphere c rad (ray_origin r) ->
  intersects (on_sphere c rad) r (intersect_ray_sphere (ray_lift r) (vS c) (Some rad)).
Proof. exact ray_sphere_ok. Qed.
Theorem C57_origin_on_sphere_refuted : exists r, is_ray 1 r /\ on_sphere [0] 1 (ray_origin r)
  /\ exists t, intersect_ray_sphere (ray_lift r) (vS [0]) (Some 1) = Some t /\ 0 < t.
Proof. exact ray_sphere_refuted. Qed.
(** The polynomial whose zeros are the points of the torus. *)
Theorem C57_torus_polynomial : forall c M m q, length q = 3%nat -> length c = 3%nat -> 0 <= m <= M ->
  (on_torus c M m q <-> torus_poly c M m q = 0).
Proof. exact on_torus_poly. Qed.
(** Missing: numbers that are not zero, but within the tolerance of the quartic solver; an origin on
    the torus. *)
Theorem C57_ray_torus_partial : forall r c M m h p q s, is_ray 3 r -> length c = 3%nat -> 0 <= m <= M ->
  (forall t, torus_poly c M m (ray_at r t) = quartic 1 0 p q s (t + h)) -> quartic_gap (1 / 1000) p q s ->
  ~ on_torus c M m (ray_origin r) ->
  exists x, intersect_ray_torus (ray_lift r) (vS c) (Some M) (Some m) = Ret x /\ intersects (on_torus c M m) r x.
Proof. exact ray_torus_ok. Qed.
(** For an origin on the torus the next point is found. *)
Theorem C57_ray_torus_next_partial : forall r c M m h p q s, is_ray 3 r -> length c = 3%nat -> 0 <= m <= M ->
  (forall t, torus_poly c M m (ray_at r t) = quartic 1 0 p q s (t + h)) -> quartic_gap (1 / 1000) p q s ->
  exists x, intersect_ray_torus (ray_lift r) (vS c) (Some M) (Some m) = Ret x /\
    match x with
    | Some t => 0 < t /\ on_torus c M m (ray_at r t) /\ forall t', 0 < t' < t -> ~ on_torus c M m (ray_at r t')
    | None => forall t, 0 < t -> ~ on_torus c M m (ray_at r t)
    end.
Proof. exact ray_torus_next. Qed.
Theorem C57_origin_on_torus_refuted : exists r c M m t, is_ray 3 r /\ length c = 3%nat /\ 0 <= m <= M
  /\ on_torus c M m (ray_origin r) /\ intersect_ray_torus (ray_lift r) (vS c) (Some M) (Some m) = Ret (Some t) /\ 0 < t.
Proof. exact ray_torus_surface_refuted. Qed.
(** C58. *)
Theorem C58_plane_plane_partial : forall p1 p2, is_plane 3 p1 -> is_plane 3 p2 ->
  let x := intersect_plane_plane (plane_lift p1) (plane_lift p2) in
  (plane_sine p1 p2 <= / 1000 -> x = line_lift (Ln [0; 0; 0] [0; 0; 0]))
  /\ (/ 1000 < plane_sine p1 p2 -> exists l, x = line_lift l /\ is_line 3 l
        /\ forall q, on_line l q <-> on_plane 3 p1 q /\ on_plane 3 p2 q).
Proof. exact plane_plane_ok. Qed.
Theorem C58_nearly_parallel_refuted : exists p1 p2 q, is_plane 3 p1 /\ is_plane 3 p2 /\ on_plane 3 p1 q /\ on_plane 3 p2 q
  /\ pl_normal p1 <> pl_normal p2 /\ pl_normal p1 <> rneg (pl_normal p2)
  /\ intersect_plane_plane (plane_lift p1) (plane_lift p2) = line_lift (Ln [0; 0; 0] [0; 0; 0]).
Proof. exact plane_plane_refuted. Qed.

Ltac ray_ok := split; [ reflexivity | split; [ reflexivity | simpl; lra ] ].
Ltac plane_ok := split; [ reflexivity | simpl; lra ].
Example ex_C54 : let r := Ray [1; 2; 3] [3 / 5; 0; 4 / 5] in let p := Pl 11 [0; 0; 1] in
  is_ray 3 r /\ is_plane 3 p /\ / 1000 < Rabs (rdot (ray_dir r) (pl_normal p))
  /\ (forall t, - / 1000 <= t < 0 -> ~ on_plane 3 p (ray_at r t))
  /\ intersect_ray_plane (ray_lift r) (plane_lift p) = Some 10.
Proof.
  intros r p. assert (HR : is_ray 3 r) by ray_ok. assert (HP : is_plane 3 p) by plane_ok. split; [ exact HR | ]. split; [ exact HP | ].
  assert (C : / 1000 < Rabs (rdot (ray_dir r) (pl_normal p))) by (simpl; rewrite Rabs_pos_eq; lra). split; [ exact C | ].
  assert (O : on_plane 3 p (ray_at r 10)) by (split; [ reflexivity | simpl; lra ]).
  split. { intros t T [_ E]. simpl in E. lra. }
  destruct (C54_ray_plane_result 3 r p eq_refl eq_refl HP) as [_ H]. destruct (H C) as (t & A & _ & B).
  assert (10 = t) by (now apply A). subst t. apply B. lra.
Qed.
Example ex_C54_parallel : let r := Ray [1; 2; 3] [3 / 5; 4 / 5; 0] in let p := Pl 11 [0; 0; 1] in
  is_ray 3 r /\ is_plane 3 p /\ rdot (ray_dir r) (pl_normal p) = 0 /\ ~ on_plane 3 p (ray_origin r).
Proof. split; [ ray_ok | ]. split; [ plane_ok | ]. split; [ simpl; lra | ]. intros [_ E]. simpl in E. lra. Qed.
Example ex_C55 : let r := Ray [1; 1; 5] [0; 0; -1] in let p1 := [0; 0; 0] in let p2 := [4; 0; 0] in let p3 := [0; 4; 0] in
  is_ray 3 r /\ / 1000 < Rabs (rdot (rcross (ray_dir r) (rsub p3 p1)) (rsub p2 p1))
  /\ first_hit (in_triangle p1 p2 p3) r 5 /\ intersect_ray_triangle (ray_lift r) (vS p1) (vS p2) (vS p3) = Some 5.
Proof.
  intros r p1 p2 p3. split; [ ray_ok | ].
  assert (C : / 1000 < Rabs (rdot (rcross (ray_dir r) (rsub p3 p1)) (rsub p2 p1))) by (simpl; rewrite Rabs_pos_eq; lra). split; [ exact C | ].
  destruct (C55_ray_triangle_partial r p1 p2 p3 eq_refl eq_refl eq_refl eq_refl eq_refl) as [_ H]. destruct (H C) as [A B].
  assert (I : in_triangle p1 p2 p3 (ray_at r 5)).
  { exists (1 / 4), (1 / 4). repeat (split; [ lra | ]). unfold ray_at, rpoint, radd, rscale, rsub. simpl. repeat (apply f_equal2; [ lra | ]). reflexivity. }
  assert (F : first_hit (in_triangle p1 p2 p3) r 5). { split; [ lra | ]. split; [ exact I | ]. intros t T J. specialize (B 5 t I J). lra. }
  split; [ exact F | ]. destruct (intersect_ray_triangle _ _ _ _) as [t|].
  - destruct A as (_ & J & _). now rewrite (B 5 t I J).
  - exfalso. apply A. exists 5. split; [ lra | exact I ].
Qed.
Example ex_C56 : let r := Ray [-3; 0] [3 / 5; 4 / 5] in let r' := Ray [1 / 2; 0] [3 / 5; 4 / 5] in let b := BB [-1; -2] [1; 2] in
  is_box 2 b /\ is_ray 2 r /\ ~ in_box (ray_origin r) (bb_min b) (bb_max b)
  /\ is_ray 2 r' /\ in_box (ray_origin r') (bb_min b) (bb_max b) /\ (forall i, (i < 2)%nat -> nth i (ray_dir r') 0 <> 0).
Proof.
  intros r r' b. split; [ box2 | ]. split; [ ray_ok | ]. split. { intros [H _]. inversion H. simpl in *. lra. }
  split; [ ray_ok | ]. split; [ split; f2 | ]. intros [|[|i]] I; simpl; try lra. lia.
Qed.
Example ex_C57_sphere : let r := Ray [-3; 0; 0] [1; 0; 0] in is_ray 3 r /\ ~ on_sphere [0; 0; 0] 1 (ray_origin r)
  /\ intersect_ray_sphere (ray_lift r) (vS [0; 0; 0]) (Some 1) = Some 2.
Proof.
  intros r. assert (HR : is_ray 3 r) by ray_ok. split; [ exact HR | ].
  assert (S : forall t, on_sphere [0; 0; 0] 1 (ray_at r t) <-> t * t + 2 * (-3) * t + 8 = 0).
  { intros t. assert (H := sphere_eq r [0; 0; 0] 1 t HR Rle_0_1). rewrite H. simpl. split; intros; lra. }
  assert (N : ~ on_sphere [0; 0; 0] 1 (ray_origin r)).
  { intros O. replace (ray_origin r) with (ray_at r 0) in O. { apply S in O. lra. } unfold ray_at, rpoint, radd, rscale. simpl. repeat (apply f_equal2; [ lra | ]). reflexivity. }
  split; [ exact N | ]. assert (C := C57_ray_sphere_partial r [0; 0; 0] 1 HR Rle_0_1 N).
  assert (O2 : on_sphere [0; 0; 0] 1 (ray_at r 2)) by (apply S; lra).
  destruct (intersect_ray_sphere _ _ _) as [t|].
  - destruct C as (T & O & M). apply S in O. assert (F : (t - 2) * (t - 4) = 0) by lra. apply Rmult_integral in F as [F|F].
    + apply f_equal. lra.
    + exfalso. apply (M 2); [ lra | exact O2 ].
  - exfalso. apply C. exists 2. split; [ lra | exact O2 ].
Qed.
Example ex_C57_torus : let r := Ray [0; 0; 0] [1; 0; 0] in let c := [0; 0; 0] in
  is_ray 3 r /\ (forall t, torus_poly c 2 1 (ray_at r t) = quartic 1 0 (-10) 0 9 (t + 0)) /\ quartic_gap (1 / 1000) (-10) 0 9
  /\ ~ on_torus c 2 1 (ray_origin r) /\ intersect_ray_torus (ray_lift r) (vS c) (Some 2) (Some 1) = Ret (Some 1).
Proof.
  intros r c. assert (HR : is_ray 3 r) by ray_ok. split; [ exact HR | ].
  assert (P : forall t, torus_poly c 2 1 (ray_at r t) = quartic 1 0 (-10) 0 9 (t + 0)) by (intros t; unfold torus_poly, quartic, Rsqr; simpl; ring).
  split; [ exact P | ]. split; [ exact gap_example | ].
  assert (M : 0 <= 1 <= 2) by lra.
  assert (N : ~ on_torus c 2 1 (ray_origin r)). { rewrite on_torus_poly; [ | reflexivity | reflexivity | lra ]. unfold torus_poly, Rsqr. simpl. lra. }
  split; [ exact N | ]. destruct (C57_ray_torus_partial r c 2 1 0 (-10) 0 9 HR eq_refl M P gap_example N) as (x & E & H). rewrite E. apply f_equal.
  assert (O : forall t, on_torus c 2 1 (ray_at r t) <-> (t * t - 1) * (t * t - 9) = 0).
  { intros t. rewrite on_torus_poly; [ | reflexivity | reflexivity | lra ]. rewrite P. replace (quartic 1 0 (-10) 0 9 (t + 0)) with ((t * t - 1) * (t * t - 9)) by (unfold quartic; ring). reflexivity. }
  destruct x as [t|].
  - destruct H as (T & A & B). apply O in A. apply f_equal. apply Rmult_integral in A as [A|A].
    + assert (F : (t - 1) * (t + 1) = 0) by lra. apply Rmult_integral in F as [F|F]; lra.
    + exfalso. apply (B 1); [ | apply O; lra ]. split; [ lra | ]. assert (F : (t - 3) * (t + 3) = 0) by lra. apply Rmult_integral in F as [F|F]; lra.
  - exfalso. apply H. exists 1. split; [ lra | ]. apply O. lra.
Qed.
Example ex_C58 : let p1 := Pl 2 [0; 0; 1] in let p2 := Pl 3 [3 / 5; 0; 4 / 5] in is_plane 3 p1 /\ is_plane 3 p2 /\ / 1000 < plane_sine p1 p2.
Proof.
  intros p1 p2. split; [ plane_ok | ]. split; [ plane_ok | ]. unfold plane_sine, rnorm. cbn [p1 p2 pl_normal rcross]. simpl.
  replace (_ + _) with (3 / 5 * (3 / 5)) by lra. rewrite sqrt_square; lra.
Qed.
Print Assumptions C54_ray_plane_partial.
Print Assumptions C54_ray_plane_parallel_partial.
Print Assumptions C54_ray_plane_result.
Print Assumptions C54_line_plane_result.
Print Assumptions C54_behind_refuted.
Print Assumptions C54_nearly_parallel_refuted.
Print Assumptions C55_ray_triangle_partial.
Print Assumptions C55_small_triangle_refuted.
Print Assumptions C56_ray_box_outside.
Print Assumptions C56_ray_box_inside_partial.
Print Assumptions C56_zero_direction_refuted.
Print Assumptions C56_origin_on_surface_refuted.
Print Assumptions C57_ray_sphere_partial.
Print Assumptions C57_origin_on_sphere_refuted.
Print Assumptions C57_torus_polynomial.
Print Assumptions C57_ray_torus_partial.
Print Assumptions C57_ray_torus_next_partial.
Print Assumptions C57_origin_on_torus_refuted.
Print Assumptions C58_plane_plane_partial.
Print Assumptions C58_nearly_parallel_refuted.
