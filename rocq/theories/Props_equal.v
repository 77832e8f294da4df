(** Final statements: C79 - C82, and further cases of C49, C53, C64, C67.
    Vocabulary: S_order, S_boxset, S_geom, S_approx, S_vec, S_dist. *)
From Coq Require Import ZArith Reals List Bool Lia Lra.
From Flocq Require Import Core BinarySingleNaN.
From Verif Require Import Ops M_scalar M_vec M_mat M_matext M_bbox M_quat M_geom M_polygon M_dist M_approx Inst_F Inst_XR Inst_conv M_intersect.
From Verif Require Import S_order S_boxset S_vec S_affine S_geom S_approx S_quat S_dist S_intersect.
From Verif Require Import P_ord P_equal P_quat P_matext2 P_approx.
Import ListNotations.
Local Open Scope R_scope.
Notation vS := (map (@Some R)).
Notation mS := (map (map (@Some R))).

(** C79 *)
Theorem C79_convert : forall p1 e1 p2 e2 : Z,
  forall (Hp1 : Prec_gt_0 p1) (Hm1 : Prec_lt_emax p1 e1) (Hp2 : Prec_gt_0 p2) (Hm2 : Prec_lt_emax p2 e2),
  forall n (b : bbox (binary_float p1 e1)), box_of n b -> exists c, bb_convert (F_conv p2 e2 Hp2 Hm2) b = Ret c /\ box_of n c
  /\ bb_min c = map (F_conv p2 e2 Hp2 Hm2) (bb_min b) /\ bb_max c = map (F_conv p2 e2 Hp2 Hm2) (bb_max b)
  /\ forall p, in_set b p -> in_set c (map (F_conv p2 e2 Hp2 Hm2) p).
Proof. exact @box_convert. Qed.
Section IEEE.
Variables prec emax : Z.
Context {Hprec : Prec_gt_0 prec} {Hmax : Prec_lt_emax prec emax}.
Notation fl := (binary_float prec emax).
Theorem C79_make_values : forall n (mn mx : fl), ~ NaN mn -> ~ NaN mx ->
  (o_le mn mx = true -> exists b, bb_make_values n mn mx = Ret b /\ box_of n b
     /\ forall p, in_set b p <-> length p = n /\ Forall (fun x => o_le mn x = true /\ o_le x mx = true) p)
  /\ ((0 < n)%nat -> o_lt mx mn = true -> bb_make_values n mn mx = Assert).
Proof. exact make_values. Qed.
Theorem C79_make_value : forall n (m : fl), ~ NaN m ->
  (o_le (cst 0) m = true -> exists b, bb_make_value n m = Ret b /\ box_of n b
     /\ forall p, in_set b p <-> length p = n /\ Forall (fun x => o_le (o_neg m) x = true /\ o_le x m = true) p)
  /\ ((0 < n)%nat -> o_lt m (cst 0) = true -> bb_make_value n m = Assert).
Proof. exact make_value. Qed.
Theorem C79_equality : forall n (b c : bbox fl), point_of n (bb_min b) -> point_of n (bb_max b) -> point_of n (bb_min c) -> point_of n (bb_max c) ->
  (bb_eq b c = true <-> vec_eq (bb_min b) (bb_min c) /\ vec_eq (bb_max b) (bb_max c)) /\ bb_ne b c = negb (bb_eq b c).
Proof. exact box_equality. Qed.

(** C80. Operators on IEEE numbers. *)
Theorem C80_ray : forall (r s : ray fl), length (ray_origin r) = length (ray_origin s) -> length (ray_dir r) = length (ray_dir s) ->
  (ray_eq r s = true <-> vec_eq (ray_origin r) (ray_origin s) /\ vec_eq (ray_dir r) (ray_dir s)) /\ ray_ne r s = negb (ray_eq r s).
Proof. exact ray_equality. Qed.
Theorem C80_plane : forall (p q : plane fl), length (pl_normal p) = length (pl_normal q) ->
  (pl_eq p q = true <-> o_eq (pl_dist p) (pl_dist q) = true /\ vec_eq (pl_normal p) (pl_normal q)) /\ pl_ne p q = negb (pl_eq p q).
Proof. exact plane_equality. Qed.
Theorem C80_segment : forall n (s t : segment fl), seg_dim n s -> seg_dim n t ->
  seg_ne s t = negb (seg_eq s t) /\ seg_le s t = seg_lt s t || seg_eq s t /\ seg_gt s t = seg_lt t s /\ seg_ge s t = seg_lt t s || seg_eq s t.
Proof. exact seg_operators. Qed.
End IEEE.
(** With a tolerance, on real numbers. *)
Theorem C79_is_equal : forall b c e, length (bb_min b) = length (bb_min c) -> length (bb_max b) = length (bb_max c) -> 0 <= e ->
  (bb_is_equal (box_lift b) (box_lift c) (Some e) = true <-> vec_within e (bb_min b) (bb_min c) /\ vec_within e (bb_max b) (bb_max c)).
Proof. exact box_is_equal. Qed.
Example C79_ex : exists b : bbox double, box_of 2 b
  /\ match bb_convert to_single b with Ret c => bb_is_valid c && negb (bb_valid2 (map to_double (bb_max c)) (bb_max b)) | _ => false end = true.
Proof.
  (* the lower corner (0, 0), the upper corner (1 + 2^-24 + 2^-52, 1): rounding enlarges it *)
  assert (H : SpecFloat.bounded 53 1024 4503599895805953 (-52) = true) by reflexivity.
  exists (BB [B754_zero false; B754_zero false] [B754_finite false 4503599895805953 (-52) H; Bone]).
  split; [|vm_compute; reflexivity].
  split; [|split]; [split; [reflexivity|]|split; [reflexivity|]|]; repeat constructor; unfold NaN; vm_compute; discriminate || reflexivity.
Qed.
Theorem C80_ray_is_equal : forall r s e, length (ray_origin r) = length (ray_origin s) -> length (ray_dir r) = length (ray_dir s) -> 0 <= e ->
  (ray_is_equal (ray_lift r) (ray_lift s) (Some e) = true <-> vec_within e (ray_origin r) (ray_origin s) /\ vec_within e (ray_dir r) (ray_dir s)).
Proof. exact ray_is_equal_ok. Qed.
Theorem C80_plane_is_equal : forall p q e, length (pl_normal p) = length (pl_normal q) -> 0 <= e ->
  (pl_is_equal (plane_lift p) (plane_lift q) (Some e) = true <-> Rabs (pl_dist p - pl_dist q) <= e /\ vec_within e (pl_normal p) (pl_normal q)).
Proof. exact plane_is_equal. Qed.
Theorem C80_segment_is_equal : forall s t e, length (seg_start s) = length (seg_start t) -> length (seg_end s) = length (seg_end t) -> 0 <= e ->
  (seg_is_equal (seg_lift s) (seg_lift t) (Some e) = true <-> vec_within e (seg_start s) (seg_start t) /\ vec_within e (seg_end s) (seg_end t)).
Proof. exact seg_is_equal_ok. Qed.
Theorem C80_polygon_is_equal : forall p q e, Forall2 (fun a b => length a = length b) p q -> 0 <= e ->
  (pg_is_equal (mS p) (mS q) (Some e) = true <-> Forall2 (vec_within e) p q).
Proof. exact pg_is_equal_ok. Qed.
Theorem C80_polygon_is_equal_sizes : forall p q e, length p <> length q -> 0 <= e -> Forall (fun a => Forall (fun b => length a = length b) q) p ->
  pg_is_equal (mS p) (mS q) (Some e) = false.
Proof. exact pg_is_equal_len. Qed.
(** The real part of a quaternion is compared up to its sign. *)
Theorem C80_quat_is_equal : forall p q e, length (q_v p) = length (q_v q) -> 0 <= e ->
  (q_is_equal (qlift p) (qlift q) (Some e) = true
   <-> (Rabs (q_r p - q_r q) <= e \/ Rabs (q_r p + q_r q) <= e) /\ vec_within e (q_v p) (q_v q)).
Proof. exact quat_is_equal. Qed.
Example C80_ex : vec_within (/ 10) [1; 2] [1 + / 20; 2 - / 20] /\ ~ vec_within (/ 10) [1; 2] [1; 3].
Proof.
  split; [repeat (constructor; [apply Rabs_le; lra|]); constructor|]. intros H. inversion H as [|? ? ? ? _ H']; subst. inversion H' as [|? ? ? ? K _]; subst.
  apply Rabs_le_inv in K. lra.
Qed.

(** C81 *)
Theorem C81_horizontal_plane : forall x y z, exists p, pl_horizontal (vS [x; y; z]) = plane_lift p /\ is_plane 3 p
  /\ (forall q, length q = 3%nat -> (on_plane 3 p q <-> nth 2 q 0 = z)) /\ pl_normal p = [0; 0; 1].
Proof. exact horizontal_ok. Qed.
Theorem C81_orthogonal_plane : forall n a d, length a = n -> length d = n -> d <> rzero n ->
  exists p k, pl_orthogonal (vS a) (vS d) = plane_lift p /\ is_plane n p /\ on_plane n p a /\ 0 < k /\ d = rscale k (pl_normal p).
Proof. exact orthogonal_ok. Qed.
Theorem C81_aligned_orthogonal_plane : forall n a d, length a = n -> length d = n -> d <> rzero n ->
  exists p i s, pl_aligned_orthogonal (vS a) (vS d) = Ret (plane_lift p) /\ is_plane n p /\ on_plane n p a
    /\ (i < n)%nat /\ (forall j, (j < n)%nat -> Rabs (nth j d 0) <= Rabs (nth i d 0))
    /\ (s = 1 \/ s = -1) /\ 0 < s * nth i d 0
    /\ length (pl_normal p) = n /\ forall j, (j < n)%nat -> nth j (pl_normal p) 0 = if Nat.eqb j i then s else 0.
Proof. exact aligned_ok. Qed.
Example C81_ex : [3; -4] <> rzero 2.
Proof. intros H. injection H. lra. Qed.

(** C82 *)
Theorem C82_length_center : forall n s, is_segment n s -> exists m,
  seg_length (seg_lift s) = Some (rdist (seg_start s) (seg_end s)) /\ seg_center (seg_lift s) = vS m
  /\ m = rlerp (seg_start s) (seg_end s) (1 / 2) /\ rdist m (seg_start s) = rdist m (seg_end s).
Proof. exact seg_measures. Qed.
Theorem C82_get_vertices : forall (T : Type) (l : list (segment T)), seg_get_vertices l = flat_map (fun s => [seg_start s; seg_end s]) l.
Proof. exact @seg_vertices. Qed.
Example C82_ex : is_segment 2 (Seg [0; 0] [6; 8]) /\ seg_get_vertices [Seg [1] [2]; Seg [3] [4]]%Z = [[1]; [2]; [3]; [4]]%Z.
Proof. repeat split. Qed.

(** C49, projection of a vector along a direction. *)
Theorem C49_plane_project_vector_along : forall n p w d, is_plane n p -> length w = n -> length d = n ->
  (/ 1000 < Rabs (rdot d (pl_normal p)) ->
     exists f s, pl_project_vector_dir (plane_lift p) (vS w) (vS d) = vS f /\ rdot f (pl_normal p) = 0 /\ f = rpoint w d s)
  /\ (Rabs (rdot d (pl_normal p)) <= / 1000 -> pl_project_vector_dir (plane_lift p) (vS w) (vS d) = repeat None n).
Proof. exact project_vector_dir. Qed.
Example C49_along_ex : is_plane 3 (Pl 5 [0; 3/5; 4/5]) /\ / 1000 < Rabs (rdot [1; 0; 1] [0; 3/5; 4/5]).
Proof. split; [split; [reflexivity|cbn; lra]|]. cbn. rewrite Rabs_pos_eq; lra. Qed.
(** C53, is_colinear of the result: parallel, and some two points are at most that far apart. *)
Theorem C53_ray_line_is_colinear_partial : forall n r l m, is_ray n r -> is_line n l ->
  (area2 (ray_dir r) (ln_dir l) = 0 ->
     (ld_is_colinear (ray_line_dist (ray_lift r) (line_lift l)) (Some m) = true <-> exists p q, on_ray r p /\ on_line l q /\ rdist p q <= m))
  /\ (/ 1000 < area2 (ray_dir r) (ln_dir l) -> ld_is_colinear (ray_line_dist (ray_lift r) (line_lift l)) (Some m) = false).
Proof. exact ray_line_colinear. Qed.
Theorem C53_ray_segment_is_colinear_partial : forall n r s m, is_ray n r -> is_segment n s -> seg_start s <> seg_end s ->
  (area2 (rsub (seg_end s) (seg_start s)) (ray_dir r) = 0 ->
     (ld_is_colinear (ray_seg_dist (ray_lift r) (seg_lift s)) (Some m) = true <-> exists p q, on_ray r p /\ on_seg s q /\ rdist p q <= m))
  /\ (/ 1000 < area2 (rsub (seg_end s) (seg_start s)) (ray_dir r) -> ld_is_colinear (ray_seg_dist (ray_lift r) (seg_lift s)) (Some m) = false).
Proof. exact ray_seg_colinear. Qed.
Example C53_colinear_ex : area2 [1; 0; 0] [1; 0; 0] = 0 /\ / 1000 < area2 [1; 0; 0] [3/5; 4/5; 0].
Proof. unfold area2. cbn. lra. Qed.
(** C64, vectors: the meaning of < and > (lexicographic), and the operands in the other order. *)
Theorem C64_vectors_order_reals : forall n x v e, length x = n -> length v = n ->
  let a := Approx (vS v) (Some e) in let y := vS x in
  apv_lt_l n a y = apv_gt_r n y a /\ apv_gt_l n a y = apv_lt_r n y a
  /\ (apv_lt_r n y a = true <-> lex Rlt eq x (map (fun z => z - e) v))
  /\ (apv_gt_r n y a = true <-> lex Rlt eq (map (fun z => z + e) v) x).
Proof. exact apv_swapped. Qed.
Example C64_vectors_order_ex : lex Rlt eq [1; 0] (map (fun z => z - / 2) [3/2; 5]).
Proof. apply lex_next; [lra|]. apply lex_here. lra. Qed.
(** C67, projection along the normal. *)
Theorem C67_plane_projection_normal : forall d n, length n = 3%nat -> rdot n n = 1 -> Rabs d <= 10 ^ 13 ->
  exists m x y, plane_projection_matrix_n (Some d) (vS n) = Ret m
    /\ length x = 3%nat /\ length y = 3%nat /\ rdot x x = 1 /\ rdot y y = 1 /\ rdot n x = 0 /\ rdot n y = 0 /\ rdot x y = 0 /\
    forall q t, length q = 3%nat -> rdot n q = d ->
      m_mul_p 4 m (vS (radd q (rscale t n))) = vS [rdot q x; rdot q y; t].
Proof. exact plane_projection_normal. Qed.
Example C67_normal_ex : rdot [0; 3/5; 4/5] [0; 3/5; 4/5] = 1.
Proof. cbn. lra. Qed.
Print Assumptions C79_convert.
Print Assumptions C79_make_values.
Print Assumptions C79_make_value.
Print Assumptions C79_equality.
Print Assumptions C80_ray.
Print Assumptions C80_plane.
Print Assumptions C80_segment.
Print Assumptions C79_is_equal.
Print Assumptions C80_ray_is_equal.
Print Assumptions C80_plane_is_equal.
Print Assumptions C80_segment_is_equal.
Print Assumptions C80_polygon_is_equal.
Print Assumptions C80_polygon_is_equal_sizes.
Print Assumptions C80_quat_is_equal.
Print Assumptions C81_horizontal_plane.
Print Assumptions C81_orthogonal_plane.
Print Assumptions C81_aligned_orthogonal_plane.
Print Assumptions C82_length_center.
Print Assumptions C82_get_vertices.
Print Assumptions C49_plane_project_vector_along.
Print Assumptions C53_ray_line_is_colinear_partial.
Print Assumptions C53_ray_segment_is_colinear_partial.
Print Assumptions C64_vectors_order_reals.
Print Assumptions C67_plane_projection_normal.
