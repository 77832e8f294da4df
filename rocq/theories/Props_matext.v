(** Final theorems: matrices for affine maps (C34 to C36, C66 to C68). *)
From Coq Require Import ZArith Reals List Bool Lia Lra.
From Verif Require Import Ops M_scalar M_vec M_mat M_quat M_bbox M_matext Inst_XR S_vec S_mat S_rot S_quat S_affine S_bbox.
From Verif Require Import P_xr P_vec P_vec2 P_mat2 P_quat P_affine P_rotmat P_matext P_matext2 P_points P_lists.
From Verif Require Import P_mat P_ldet P_euler.
Import ListNotations.
Local Open Scope R_scope.

(** [vS a] and [mS A] are the vector and the matrix with the real components [a] and [A]. *)
Notation vS := (map (@Some R)).
Notation mS := (map (map (@Some R))).
Notation mmul4 := (@m_mul XR XRops 4 4 4).

(** C34 *)
Theorem C34_translation : forall d p, length p = length d ->
  m_mul_p (S (length d)) (translation_matrix (vS d)) (vS p) = vS (radd p d).
Proof. exact translation_acts. Qed.
Theorem C34_scaling : forall f p, length p = length f ->
  m_mul_p (S (length f)) (scaling_matrix (vS f)) (vS p) = vS (zip Rmult f p).
Proof. exact scaling_acts. Qed.
Theorem C34_translations_compose : forall a b, length a = length b ->
  let n := S (length a) in
  m_mul n n n (translation_matrix (vS a)) (translation_matrix (vS b)) = translation_matrix (v_add (vS a) (vS b))
  /\ m_mul n n n (translation_matrix (vS a)) (translation_matrix (v_neg (vS a))) = m_identity n n
  /\ m_mul n n n (translation_matrix (v_neg (vS a))) (translation_matrix (vS a)) = m_identity n n.
Proof. exact translations_compose. Qed.
Theorem C34_translation_entries : forall T (o : ops T) n (m : list (list T)) d, is_mat (S n) (S n) m ->
  is_mat (S n) (S n) (strip_translation (S n) m) /\ is_mat (S n) (S n) (translation_of (S n) m) /\
  forall r c, (r <= n)%nat -> (c <= n)%nat ->
    nth r (nth c (strip_translation (S n) m) []) d
    = (if (r <? n)%nat && (c =? n)%nat then cst 0 else nth r (nth c m []) d)
    /\ nth r (nth c (translation_of (S n) m) []) d
    = (if (r <? n)%nat && (c =? n)%nat then nth r (nth c m []) d else if (r =? c)%nat then cst 1 else cst 0).
Proof. exact translation_entries. Qed.
Theorem C34_strip_translation : forall n M p, affine n M -> length p = n ->
  let m := mS M in let N := S n in
  m_mul N N N (translation_of N m) (strip_translation N m) = m
  /\ m_mul_p N (strip_translation N m) (vS p) = v_sub (m_mul_p N m (vS p)) (m_mul_p N m (v_zero n))
  /\ m_mul_p N (translation_of N m) (vS p) = v_add (vS p) (m_mul_p N m (v_zero n)).
Proof. exact strip_laws. Qed.
Theorem C34_shear : forall Sxy Sxz Syx Syz Szx Szy x y z,
  m_mul_p 4 (shear_matrix (Some Sxy) (Some Sxz) (Some Syx) (Some Syz) (Some Szx) (Some Szy)) (vS [x; y; z])
  = vS [x + Syx * y + Szx * z; y + Sxy * x + Szy * z; z + Sxz * x + Syz * y].
Proof. exact shear_acts. Qed.
Theorem C34_mirror : forall a x y z,
  m_mul_p 4 (mirror_matrix a) (vS [x; y; z])
  = vS (match a with 0%nat => [- x; y; z] | 1%nat => [x; - y; z] | 2%nat => [x; y; - z] | _ => [x; y; z] end).
Proof. exact mirror_acts. Qed.
Example C34_ex : affine 1 [[3; 0]; [5; 1]] /\ is_mat 2 2 [[3; 0]; [5; 1]].
Proof.
  assert (H : is_mat 2 2 [[3; 0]; [5; 1]]) by (split; [reflexivity|repeat constructor]). split; [split|]; auto.
  intros [|[|c]] Hc; [reflexivity|reflexivity|lia].
Qed.

(** C35 *)
Theorem C35_rodrigues : forall u th p, length u = 3%nat -> length p = 3%nat ->
  m_mul_p 4 (rotation_axis_angle (vS u) (Some th)) (vS p) = vS (rrot u th p).
Proof. exact rotation_rodrigues. Qed.
Theorem C35_is_rotation : forall u th, length u = 3%nat -> rdot u u = 1 ->
  exists M, rotation_axis_angle (vS u) (Some th) = mS M /\ affine 3 M /\ orthogonal 4 M /\ m_det 4 (mS M) = Some 1
    /\ m_mul_p 4 (mS M) (vS u) = vS u.
Proof. exact rotation_is_rotation. Qed.
Theorem C35_angles_add : forall u a b, length u = 3%nat -> rdot u u = 1 ->
  mmul4 (rotation_axis_angle (vS u) (Some a)) (rotation_axis_angle (vS u) (Some b)) = rotation_axis_angle (vS u) (Some (a + b))
  /\ rotation_axis_angle (vS u) (Some 0) = m_identity 4 4
  /\ m_transpose 4 (rotation_axis_angle (vS u) (Some a)) = rotation_axis_angle (vS u) (Some (- a)).
Proof. exact rotations_add. Qed.
Theorem C35_isometry : forall u th p q, length u = 3%nat -> length p = 3%nat -> length q = 3%nat -> rdot u u = 1 ->
  rdot (rrot u th p) (rrot u th q) = rdot p q /\ rcross (rrot u th p) (rrot u th q) = rrot u th (rcross p q).
Proof. exact rrot_isometry. Qed.
Theorem C35_of_quaternion : forall q p, is_quat q -> rq_norm2 q = 1 -> length p = 3%nat ->
  m_mul_p 4 (rotation_quat (qlift q)) (vS p) = q_rotate (qlift q) (vS p).
Proof. exact rotation_quat_acts. Qed.
Theorem C35_agrees_with_quaternion : forall u th, length u = 3%nat -> rdot u u = 1 ->
  exists q, q_axis_angle (vS u) (Some th) = Ret q /\ rotation_quat q = rotation_axis_angle (vS u) (Some th).
Proof. exact rotation_quat_agrees. Qed.
Theorem C35_from_to : forall f t, length f = 3%nat -> length t = 3%nat -> rdot f f = 1 -> rdot t t = 1 ->
  exists m r, rotation_from_to (vS f) (vS t) = Ret m /\ m_mul_p 4 m (vS f) = vS r
    /\ (Rabs (rdot f t) < 1 - 1 / 1000 -> r = t) /\ (t = f -> r = t) /\ (t = rneg f -> r = t)
    /\ rdot (rsub r t) (rsub r t) <= 2 / 1000.
Proof. exact rotation_from_to_ok. Qed.
Theorem C35_roll_pitch_yaw : forall r p y v, length v = 3%nat ->
  m_mul_p 4 (rotation_rpy (Some r) (Some p) (Some y)) (vS v)
  = vS (rrot [0; 0; 1] y (rrot [0; 1; 0] p (rrot [1; 0; 0] r v))).
Proof. exact rpy_acts. Qed.
Theorem C35_roll_pitch_yaw_is_rotation : forall r p y,
  exists M, rotation_rpy (Some r) (Some p) (Some y) = mS M /\ affine 3 M /\ orthogonal 4 M /\ m_det 4 (mS M) = Some 1.
Proof. exact rpy_is_rotation. Qed.
Example C35_ex : rdot [2/3; 2/3; 1/3] [2/3; 2/3; 1/3] = 1.
Proof. simpl. lra. Qed.

(** C36 *)
Theorem C36_euler_round_trip : forall r p y,
  exists r' p' y', rotation_matrix_to_euler_angles (rotation_rpy (Some r) (Some p) (Some y)) = [Some r'; Some p'; Some y']
    /\ rotation_rpy (Some r') (Some p') (Some y') = rotation_rpy (Some r) (Some p) (Some y).
Proof. exact euler_roundtrip. Qed.
(** Every rotation matrix, however it was made, is built again from its angles. *)
Theorem C36_euler_any_rotation : forall M, affine 3 M -> orthogonal 4 M -> m_det 4 (mS M) = Some 1 ->
  exists r p y, rotation_matrix_to_euler_angles (mS M) = [Some r; Some p; Some y] /\ rotation_rpy (Some r) (Some p) (Some y) = mS M.
Proof. exact euler_any. Qed.
(** The angles are in the usual ranges, and angles in these ranges come back themselves. *)
Theorem C36_euler_ranges : forall M r p y, rotation_matrix_to_euler_angles (mS M) = [Some r; Some p; Some y] ->
  - PI < r <= PI /\ - (PI / 2) <= p <= PI / 2 /\ - PI < y <= PI.
Proof. exact euler_range. Qed.
Theorem C36_euler_recovers : forall r p y, - PI < r <= PI -> - (PI / 2) < p < PI / 2 -> - PI < y <= PI ->
  rotation_matrix_to_euler_angles (rotation_rpy (Some r) (Some p) (Some y)) = [Some r; Some p; Some y].
Proof. exact euler_recovers. Qed.
Example C36_ex : let M := [[3 / 5; 4 / 5; 0; 0]; [0; 0; 1; 0]; [4 / 5; - (3 / 5); 0; 0]; [0; 0; 0; 1]] in
  affine 3 M /\ orthogonal 4 M /\ m_det 4 (mS M) = Some 1 /\ - PI < 1 <= PI /\ - (PI / 2) < 1 < PI / 2.
Proof.
  cbv zeta. change [[3 / 5; 4 / 5; 0; 0]; [0; 0; 1; 0]; [4 / 5; - (3 / 5); 0; 0]; [0; 0; 0; 1]] with (M4 (3 / 5) 0 (4 / 5) 0 (4 / 5) 0 (- (3 / 5)) 0 0 1 0 0 0 0 0 1).
  split; [ apply M4_affine | ]. split; [ | split ].
  - unfold orthogonal. rewrite M4_trans, M4_id, !M4_mul. split; apply M4_eq; lra.
  - rewrite X_det by apply M4_shape. f_equal. unfold M4. cbn. unfold sgn, skip. cbn. lra.
  - pose proof PI2_1. repeat split; lra.
Qed.

(** C66. [box_point b t] is the point at the relative position t; corners have t in {0,1}^3. *)
Theorem C66_scale_bbox : forall b1 b2, is_box 3 b1 -> is_box 3 b2 -> Forall (fun x => x <> 0) (rsize b1) ->
  exists m, scale_bbox_matrix (blift b1) (blift b2) = Ret m /\
    forall t, length t = 3%nat -> m_mul_p 4 m (vS (box_point b1 t)) = vS (box_point b2 t).
Proof. exact scale_bbox_ok. Qed.
Theorem C66_scale_bbox_with_anchor : forall b ns a, is_box 3 b -> length ns = 3%nat -> length a = 3%nat -> Forall (fun x => x <> 0) (rsize b) ->
  exists m, scale_bbox_matrix_with_anchor (blift b) (vS ns) (vS a) = Ret m /\
    m_mul_p 4 m (vS a) = vS a /\
    (forall p, length p = 3%nat -> m_mul_p 4 m (vS p) = vS (radd a (zip Rmult (zip Rdiv ns (rsize b)) (rsub p a)))) /\
    (forall t, length t = 3%nat ->
      v_sub (m_mul_p 4 m (vS (box_point b t))) (m_mul_p 4 m (vS (bb_min b))) = vS (zip Rmult t ns)).
Proof. exact scale_anchor_ok. Qed.
Theorem C66_shear_bbox : forall b i (s : bool) d, is_box 3 b -> (i < 3)%nat -> nth i (rsize b) 0 <> 0 -> length d = 3%nat ->
  let side := map (fun j => if Nat.eqb j i then if s then 1 else -1 else 0) (seq 0 3) in
  let here := nth i (if s then bb_max b else bb_min b) 0 in
  let opposite := nth i (if s then bb_min b else bb_max b) 0 in
  let d' := map (fun j => if Nat.eqb j i then 0 else nth j d 0) (seq 0 3) in
  exists m, shear_bbox_matrix (blift b) (vS side) (vS d) = Ret m /\
    forall p, length p = 3%nat ->
      m_mul_p 4 m (vS p) = vS (radd p (rscale ((nth i p 0 - opposite) / (here - opposite)) d')).
Proof. exact shear_bbox_ok. Qed.
Theorem C66_shear_bbox_other_sides : forall b side d, is_box 3 b -> length side = 3%nat -> length d = 3%nat ->
  ~ In side [[1; 0; 0]; [-1; 0; 0]; [0; 1; 0]; [0; -1; 0]; [0; 0; 1]; [0; 0; -1]] ->
  shear_bbox_matrix (blift b) (vS side) (vS d) = Assert.
Proof. exact shear_bbox_bad_side. Qed.
Example C66_ex : is_box 3 (BB [0; -1; 2] [1; 1; 5]) /\ Forall (fun x => x <> 0) (rsize (BB [0; -1; 2] [1; 1; 5]))
  /\ nth 1 (rsize (BB [0; -1; 2] [1; 1; 5])) 0 <> 0.
Proof.
  unfold is_box, rsize, rsub. cbn [zip bb_min bb_max nth].
  repeat split; repeat (apply Forall2_cons || apply Forall2_nil || apply Forall_cons || apply Forall_nil); lra.
Qed.
Theorem C66_points4 : forall p0 p1 p2 p3 q0 q1 q2 q3,
  length p0 = 3%nat -> length p1 = 3%nat -> length p2 = 3%nat -> length p3 = 3%nat ->
  length q0 = 3%nat -> length q1 = 3%nat -> length q2 = 3%nat -> length q3 = 3%nat ->
  let m := points_transformation_matrix4 (vS p0) (vS p1) (vS p2) (vS p3) (vS q0) (vS q1) (vS q2) (vS q3) in
  m = m_fill 4 4 None \/
  exists M, m = mS M /\ affine 3 M /\
    m_mul_p 4 m (vS p0) = vS q0 /\ m_mul_p 4 m (vS p1) = vS q1 /\ m_mul_p 4 m (vS p2) = vS q2 /\ m_mul_p 4 m (vS p3) = vS q3 /\
    forall M', affine 3 M' -> raffine 3 M' p0 = q0 -> raffine 3 M' p1 = q1 -> raffine 3 M' p2 = q2 -> raffine 3 M' p3 = q3 -> M' = M.
Proof. exact points4_found. Qed.
Theorem C66_points4_complete : forall p0 p1 p2 p3 q0 q1 q2 q3,
  length p0 = 3%nat -> length p1 = 3%nat -> length p2 = 3%nat -> length p3 = 3%nat ->
  length q0 = 3%nat -> length q1 = 3%nat -> length q2 = 3%nat -> length q3 = 3%nat ->
  let u := rsub p1 p0 in let v := rsub p2 p0 in let w := rsub p3 p0 in let d := rdot (rcross u v) w in
  d <> 0 -> Forall (fun k => Rabs k <= 10 ^ 13 * Rabs d) (rcross v w ++ rcross w u ++ rcross u v) ->
  points_transformation_matrix4 (vS p0) (vS p1) (vS p2) (vS p3) (vS q0) (vS q1) (vS q2) (vS q3) <> m_fill 4 4 None.
Proof. exact points4_complete. Qed.
Theorem C66_points3 : forall p0 p1 p2 q0 q1 q2,
  length p0 = 3%nat -> length p1 = 3%nat -> length p2 = 3%nat ->
  length q0 = 3%nat -> length q1 = 3%nat -> length q2 = 3%nat ->
  let cp := rcross (rsub p1 p0) (rsub p2 p0) in let cq := rcross (rsub q1 q0) (rsub q2 q0) in
  rnorm cp <> 0 -> rnorm cq <> 0 ->
  let m := points_transformation_matrix3 (vS p0) (vS p1) (vS p2) (vS q0) (vS q1) (vS q2) in
  m = m_fill 4 4 None \/
  exists M, m = mS M /\ affine 3 M /\
    m_mul_p 4 m (vS p0) = vS q0 /\ m_mul_p 4 m (vS p1) = vS q1 /\ m_mul_p 4 m (vS p2) = vS q2 /\
    m_mul_p 4 m (vS (radd p0 (rscale (/ rnorm cp) cp))) = vS (radd q0 (rscale (/ rnorm cq) cq)).
Proof. exact points3_found. Qed.
Example C66_points_ex : let u := [1; 0; 0] in let v := [0; 2; 0] in let w := [1; 1; 1] in let d := rdot (rcross u v) w in
  d <> 0 /\ Forall (fun k => Rabs k <= 10 ^ 13 * Rabs d) (rcross v w ++ rcross w u ++ rcross u v).
Proof.
  cbn [rcross rdot app]. split; [lra|]. rewrite (Rabs_pos_eq ((0 * 0 - 0 * 2) * 1 + _)) by lra.
  repeat (apply Forall_cons || apply Forall_nil); apply Rabs_le; simpl pow; lra.
Qed.

(** C67 *)
Theorem C67_coordinate_system : forall x y z p m, length x = 3%nat -> length y = 3%nat -> length z = 3%nat -> length p = 3%nat ->
  coordinate_system_matrix (vS x) (vS y) (vS z) (vS p) = Ret m ->
  forall a b c, m_mul_p 4 m (vS (radd p (radd (rscale a x) (radd (rscale b y) (rscale c z))))) = vS [a; b; c].
Proof. exact coordinate_system_acts. Qed.
Theorem C67_coordinate_system_total : forall x y z p, length x = 3%nat -> length y = 3%nat -> length z = 3%nat -> length p = 3%nat ->
  (dependent x y z -> coordinate_system_matrix (vS x) (vS y) (vS z) (vS p) = Assert) /\
  (let d := rdot (rcross x y) z in let L := 10 ^ 13 * Rabs d in
   d <> 0 ->
   Forall (fun k => Rabs k <= L) (rcross y z ++ rcross z x ++ rcross x y ++ [rdot (rcross y z) p; rdot (rcross z x) p; rdot (rcross x y) p]) ->
   exists M, affine 3 M /\ coordinate_system_matrix (vS x) (vS y) (vS z) (vS p) = Ret (mS M)).
Proof. exact coordinate_system_total. Qed.
Theorem C67_plane_projection : forall d n dir m, length n = 3%nat -> length dir = 3%nat -> rdot n n = 1 ->
  plane_projection_matrix (Some d) (vS n) (vS dir) = Ret m ->
  exists x y, length x = 3%nat /\ length y = 3%nat /\ rdot x x = 1 /\ rdot y y = 1 /\ rdot n x = 0 /\ rdot n y = 0 /\ rdot x y = 0 /\
    forall q t, length q = 3%nat -> rdot n q = d ->
      m_mul_p 4 m (vS (radd q (rscale t dir))) = vS [rdot q x; rdot q y; t].
Proof. exact plane_projection_ok. Qed.
Theorem C67_plane_projection_total : forall d n dir, length n = 3%nat -> length dir = 3%nat -> rdot n n = 1 -> rdot dir dir = 1 ->
  (rdot n dir = 0 -> plane_projection_matrix (Some d) (vS n) (vS dir) = Assert) /\
  (1 <= 10 ^ 13 * Rabs (rdot n dir) -> Rabs d <= 10 ^ 13 * Rabs (rdot n dir) ->
   exists M, affine 3 M /\ plane_projection_matrix (Some d) (vS n) (vS dir) = Ret (mS M)).
Proof. exact plane_projection_total. Qed.
Example C67_ex : rdot [0; 3/5; 4/5] [0; 3/5; 4/5] = 1 /\ rdot [0; 0; 1] [0; 0; 1] = 1
  /\ 1 <= 10 ^ 13 * Rabs (rdot [0; 3/5; 4/5] [0; 0; 1]) /\ Rabs 7 <= 10 ^ 13 * Rabs (rdot [0; 3/5; 4/5] [0; 0; 1]).
Proof. cbn [rdot]. rewrite !(Rabs_pos_eq (_ + _)) by lra. rewrite Rabs_pos_eq by lra. simpl pow. repeat split; lra. Qed.
Theorem C67_ortho : forall n f l t r b x y z, l < r -> b < t -> n < f ->
  exists x' y' z', m_mul_p 4 (ortho_matrix (Some n) (Some f) (Some l) (Some t) (Some r) (Some b)) (vS [x; y; z]) = vS [x'; y'; z']
    /\ x' = -1 + 2 * ((x - l) / (r - l)) /\ y' = -1 + 2 * ((y - b) / (t - b)) /\ z' = -1 + 2 * ((- z - n) / (f - n))
    /\ (l <= x <= r <-> -1 <= x' <= 1) /\ (b <= y <= t <-> -1 <= y' <= 1) /\ (n <= - z <= f <-> -1 <= z' <= 1).
Proof. exact ortho_ok. Qed.
Theorem C67_perspective : forall fov n f w h x y z, 0 < fov < 180 -> 0 < n < f -> (0 < w)%Z -> (0 < h)%Z -> z < 0 ->
  let vert := tan (fov * PI / 180 / 2) * (3 / 4) in let horiz := vert * (IZR w / IZR h) in
  exists x' y' z', m_mul_p 4 (perspective_matrix (Some fov) (Some n) (Some f) w h) (vS [x; y; z]) = vS [x'; y'; z']
    /\ (Rabs x <= horiz * - z <-> -1 <= x' <= 1) /\ (Rabs y <= vert * - z <-> -1 <= y' <= 1) /\ (n <= - z <= f <-> -1 <= z' <= 1)
    /\ (0 < x <-> 0 < x') /\ (0 < y <-> 0 < y') /\ (z = - n <-> z' = -1) /\ (z = - f <-> z' = 1).
Proof. exact perspective_ok. Qed.
Theorem C67_view : forall d u, length d = 3%nat -> length u = 3%nat -> rdot d d = 1 -> rdot u u = 1 -> rdot d u = 0 ->
  exists M, view_matrix (vS d) (vS u) = mS M /\ affine 3 M /\ orthogonal 4 M /\ m_det 4 (mS M) = Some 1
    /\ m_mul_p 4 (mS M) (vS d) = vS [0; 0; -1] /\ m_mul_p 4 (mS M) (vS u) = vS [0; 1; 0]
    /\ m_mul_p 4 (mS M) (vS (rcross d u)) = vS [1; 0; 0].
Proof. exact view_ok. Qed.
Example C67_view_ex : rdot [3/5; 4/5; 0] [3/5; 4/5; 0] = 1 /\ rdot [0; 0; 1] [0; 0; 1] = 1 /\ rdot [3/5; 4/5; 0] [0; 0; 1] = 0.
Proof. cbn [rdot]. repeat split; lra. Qed.

(** C68 *)
Theorem C68_lists : forall T (o : ops T) (l : list (list T)) v s m n,
  lv_add l v = map (fun x => v_add x v) l /\ vl_add v l = map (fun x => v_add x v) l
  /\ av_add n (length l) l v = map (fun x => v_add x v) l /\ va_add n (length l) v l = map (fun x => v_add x v) l
  /\ ls_mul l s = map (fun x => v_scale x s) l /\ sl_mul s l = map (fun x => v_scale x s) l
  /\ as_mul n (length l) l s = map (fun x => v_scale x s) l /\ sa_mul n (length l) s l = map (fun x => v_scale x s) l
  /\ ml_mul n m l = map (m_mul_v n m) l /\ ma_mul n (length l) m l = map (m_mul_v n m) l
  /\ mlp_mul n m l = map (m_mul_p n m) l /\ map_mul n (length l) m l = map (m_mul_p n m) l.
Proof. exact lists_elementwise. Qed.
Theorem C68_row_vectors : forall T (o : ops T) (l : list (list T)) m n,
  (exists r, lm_mul n l m = Ret r /\ am_mul n (length l) l m = Ret r /\ Forall2 (fun v x => v_mul_m n n v m = Ret x) l r)
  /\ (exists r, lpm_mul n l m = Ret r /\ apm_mul n (length l) l m = Ret r /\ Forall2 (fun v x => p_mul_m n v m = Ret x) l r).
Proof. exact lists_row_vectors. Qed.
(** A list of two vectors moved by a third. *)
Example ex_C68_case : lv_add [map (@Some R) [1; 2]; map (@Some R) [3; -4]] (map (@Some R) [10; 20]) = [map (@Some R) [11; 22]; map (@Some R) [13; 16]].
Proof. cbn. repeat f_equal; lra. Qed.
Print Assumptions C34_translation.
Print Assumptions C34_scaling.
Print Assumptions C34_translations_compose.
Print Assumptions C34_translation_entries.
Print Assumptions C34_strip_translation.
Print Assumptions C34_shear.
Print Assumptions C34_mirror.
Print Assumptions C35_rodrigues.
Print Assumptions C35_is_rotation.
Print Assumptions C35_angles_add.
Print Assumptions C35_isometry.
Print Assumptions C35_of_quaternion.
Print Assumptions C35_agrees_with_quaternion.
Print Assumptions C35_from_to.
Print Assumptions C35_roll_pitch_yaw.
Print Assumptions C35_roll_pitch_yaw_is_rotation.
Print Assumptions C36_euler_round_trip.
Print Assumptions C36_euler_any_rotation.
Print Assumptions C36_euler_ranges.
Print Assumptions C36_euler_recovers.
Print Assumptions C66_scale_bbox.
Print Assumptions C66_scale_bbox_with_anchor.
Print Assumptions C66_shear_bbox.
Print Assumptions C66_shear_bbox_other_sides.
Print Assumptions C66_points4.
Print Assumptions C66_points4_complete.
Print Assumptions C66_points3.
Print Assumptions C67_coordinate_system.
Print Assumptions C67_coordinate_system_total.
Print Assumptions C67_plane_projection.
Print Assumptions C67_plane_projection_total.
Print Assumptions C67_ortho.
Print Assumptions C67_perspective.
Print Assumptions C67_view.
Print Assumptions C68_lists.
Print Assumptions C68_row_vectors.
