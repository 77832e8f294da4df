(** C101: transforming twice is transforming by the product, and the inverse undoes it. *)
From Coq Require Import ZArith Reals List Bool Lra Lia.
From Verif Require Import Ops M_scalar M_vec M_mat M_matext M_bbox M_geom Inst_XR S_vec S_mat S_affine S_bbox S_geom.
From Verif Require Import P_vec P_line P_plane P_mat3 P_affine P_rigid2 P_compose P_compose2.
Import ListNotations.
Local Open Scope R_scope.

(** ** The product transforms by the second matrix first *)
Theorem C101_point : forall n A B, affine n A -> affine n B -> forall p, length p = n ->
  m_mul_p (S n) (m_mul (S n) (S n) (S n) (mS A) (mS B)) (vS p) = m_mul_p (S n) (mS A) (m_mul_p (S n) (mS B) (vS p)).
Proof. exact tw_point. Qed.
Theorem C101_ray : forall n A B, affine n A -> affine n B -> forall r, is_ray n r -> keeps n (rmul (S n) (S n) (S n) A B) (ray_dir r) ->
  ray_transform (S n) (ray_lift r) (m_mul (S n) (S n) (S n) (mS A) (mS B)) = ray_transform (S n) (ray_transform (S n) (ray_lift r) (mS B)) (mS A).
Proof. exact tw_ray. Qed.
Theorem C101_line : forall n A B, affine n A -> affine n B -> forall l, is_line n l -> keeps n (rmul (S n) (S n) (S n) A B) (ln_dir l) ->
  ln_transform (S n) (line_lift l) (m_mul (S n) (S n) (S n) (mS A) (mS B)) = ln_transform (S n) (ln_transform (S n) (line_lift l) (mS B)) (mS A).
Proof. exact tw_line. Qed.
Theorem C101_segment : forall n A B, affine n A -> affine n B -> forall s, is_segment n s ->
  seg_transform (S n) (seg_lift s) (m_mul (S n) (S n) (S n) (mS A) (mS B)) = seg_transform (S n) (seg_transform (S n) (seg_lift s) (mS B)) (mS A).
Proof. exact tw_seg. Qed.
(** Missing: matrices that do not multiply all distances by one factor. *)
Theorem C101_plane_partial : forall n A B j k p, similarity n A j -> similarity n B k -> is_plane n p ->
  pl_transform (S n) (plane_lift p) (m_mul (S n) (S n) (S n) (mS A) (mS B)) = pl_transform (S n) (pl_transform (S n) (plane_lift p) (mS B)) (mS A).
Proof. exact tw_plane. Qed.
(** Missing: the other inclusion, which does not hold. *)
Theorem C101_box_partial : forall A B b, affine 3 A -> affine 3 B -> is_box 3 b -> exists c1 c2 c3,
  bb_transform (blift b) (m_mul 4 4 4 (mS A) (mS B)) = Ret (blift c1)
  /\ bb_transform (blift b) (mS B) = Ret (blift c2) /\ bb_transform (blift c2) (mS A) = Ret (blift c3)
  /\ forall p, in_bbox c1 p -> in_bbox c3 p.
Proof. exact tw_box. Qed.
Example C101_ex : let A := [[3 / 5; 4 / 5; 0; 0]; [- (4 / 5); 3 / 5; 0; 0]; [0; 0; 1; 0]; [1; 2; 3; 1]] in
  affine 3 A /\ affine 3 stretch /\ affine 3 shear /\ keeps 3 (rmul 4 4 4 A stretch) [3 / 5; 4 / 5; 0]
  /\ is_ray 3 (Ray [1; 2; 3] [3 / 5; 4 / 5; 0]) /\ is_segment 3 (Seg [1; 2; 3] [0; 5; 0]) /\ is_box 3 (BB [0; 0; 0] [1; 2; 3]).
Proof.
  cbv zeta. set (A := [[3 / 5; _; _; _]; _; _; _]).
  assert (HA : affine 3 A) by (split; [ now apply is_mat4 | ]; intros c Hc; assert (c < 4)%nat as H by lia; revert c H Hc; four; intros; reflexivity).
  split; [ exact HA | ]. split; [ exact stretch_affine | ]. split; [ exact shear_affine | ]. split.
  - unfold keeps, rzero. rewrite !(raffine_mul 3 A stretch) by (auto using stretch_affine). cbn [repeat]. rewrite !stretch_image.
    intros Q. unfold A, raffine, ent in Q. cbn [seq map Rsum nth] in Q. injection Q. lra.
  - split; [ split; [ reflexivity | split; [ reflexivity | cbn; lra ] ] | ]. split; [ split; reflexivity | ].
    split; [ reflexivity | split; [ reflexivity | box_le ] ].
Qed.

(** ** A successful inversion gives the matrix that undoes the transformation *)
Theorem C101_undo_point : forall n A res, affine n A -> m_invert (S n) (mS A) = (true, res) -> forall p, length p = n ->
  m_mul_p (S n) res (m_mul_p (S n) (mS A) (vS p)) = vS p.
Proof. exact un_point. Qed.
Theorem C101_undo_ray : forall n A res, affine n A -> m_invert (S n) (mS A) = (true, res) -> forall r, is_ray n r ->
  ray_transform (S n) (ray_transform (S n) (ray_lift r) (mS A)) res = ray_lift r.
Proof. exact un_ray. Qed.
Theorem C101_undo_line : forall n A res, affine n A -> m_invert (S n) (mS A) = (true, res) -> forall l, is_line n l ->
  ln_transform (S n) (ln_transform (S n) (line_lift l) (mS A)) res = line_lift l.
Proof. exact un_line. Qed.
Theorem C101_undo_segment : forall n A res, affine n A -> m_invert (S n) (mS A) = (true, res) -> forall a b, length a = n -> length b = n ->
  seg_transform (S n) (seg_transform (S n) (seg_make (vS a) (vS b)) (mS A)) res = seg_make (vS a) (vS b).
Proof. exact un_seg. Qed.
(** Missing: matrices that do not multiply all distances by one factor. *)
Theorem C101_undo_plane_partial : forall n A res, affine n A -> m_invert (S n) (mS A) = (true, res) -> forall k p, similarity n A k -> is_plane n p ->
  pl_transform (S n) (pl_transform (S n) (plane_lift p) (mS A)) res = plane_lift p.
Proof. exact un_plane. Qed.
(** Finding: with a stretching matrix the plane that comes back is another one. *)
Theorem C101_undo_plane_refuted : exists A res p p', affine 3 A /\ m_invert 4 (mS A) = (true, res) /\ is_plane 3 p
  /\ pl_transform 4 (pl_transform 4 (plane_lift p) (mS A)) res = plane_lift p' /\ pl_normal p' = pl_normal p /\ pl_dist p' <> pl_dist p.
Proof. exact un_plane_refuted. Qed.
(** Missing: the other inclusion, which does not hold. *)
Theorem C101_undo_box_partial : forall A res b, affine 3 A -> m_invert 4 (mS A) = (true, res) -> is_box 3 b -> exists c1 c2,
  bb_transform (blift b) (mS A) = Ret (blift c1) /\ bb_transform (blift c1) res = Ret (blift c2) /\ forall p, in_bbox b p -> in_bbox c2 p.
Proof. exact un_box. Qed.
(** Finding: the box that comes back may be larger. *)
Theorem C101_undo_box_refuted : exists A res b c1 c2 p, affine 3 A /\ m_invert 4 (mS A) = (true, res) /\ is_box 3 b
  /\ bb_transform (blift b) (mS A) = Ret (blift c1) /\ bb_transform (blift c1) res = Ret (blift c2) /\ in_bbox c2 p /\ ~ in_bbox b p.
Proof. exact un_box_refuted. Qed.
Example C101_undo_ex : affine 3 stretch /\ m_invert 4 (mS stretch) = (true, mS unstretch).
Proof. exact (conj stretch_affine stretch_invert). Qed.
Print Assumptions C101_point.
Print Assumptions C101_ray.
Print Assumptions C101_line.
Print Assumptions C101_segment.
Print Assumptions C101_plane_partial.
Print Assumptions C101_box_partial.
Print Assumptions C101_undo_point.
Print Assumptions C101_undo_ray.
Print Assumptions C101_undo_line.
Print Assumptions C101_undo_segment.
Print Assumptions C101_undo_plane_partial.
Print Assumptions C101_undo_plane_refuted.
Print Assumptions C101_undo_box_partial.
Print Assumptions C101_undo_box_refuted.
