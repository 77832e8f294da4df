(** Proofs about the 4x4 matrices of mat_ext.h: rotations, Euler angles, projections. *)
From Coq Require Import ZArith Reals List Bool Lra Lia Arith.

From Flocq Require Import Core.
From Verif Require Import Ops M_scalar M_vec M_mat M_bbox M_quat M_matext Inst_XR P_xr S_vec S_mat S_affine S_rot S_quat P_vec P_vec2 P_mat P_mat2 P_mat3 P_ldet P_det P_quat P_affine.
Import ListNotations.
Local Open Scope R_scope.

(** ** Explicit matrices *)
Definition M4 (a b c d  e f g h  i j k l  m n p q : R) : list (list R) :=
  [[a; e; i; m]; [b; f; j; n]; [c; g; k; p]; [d; h; l; q]].
Lemma rows4 : forall a b c d e f g h i j k l m n p q : R,
  m_of_rows 4 4 [Some a; Some b; Some c; Some d; Some e; Some f; Some g; Some h;
                 Some i; Some j; Some k; Some l; Some m; Some n; Some p; Some q]
  = mS (M4 a b c d e f g h i j k l m n p q).
Proof. reflexivity. Qed.
Lemma M4_shape : forall a b c d e f g h i j k l m n p q, is_mat 4 4 (M4 a b c d e f g h i j k l m n p q).
Proof. intros. split; repeat constructor. Qed.
Lemma M4_affine : forall a b c d e f g h i j k l, affine 3 (M4 a b c d e f g h i j k l 0 0 0 1).
Proof.
  intros. split; [apply M4_shape|]. intros n Hn.
  destruct n as [|[|[|[|]]]]; try lia; reflexivity.
Qed.
Lemma act4 : forall a b c d e f g h i j k l x y z,
  m_mul_p 4 (mS (M4 a b c d e f g h i j k l 0 0 0 1)) (vS [x; y; z])
  = vS [a * x + b * y + c * z + d; e * x + f * y + g * z + h; i * x + j * y + k * z + l].
Proof.
  intros. rewrite (X_affine 3) by (auto using M4_affine). f_equal.
  unfold raffine, ent. cbn -[Rmult Rplus]. listeq; try reflexivity; ring.
Qed.
Lemma M4_eq : forall a b c d e f g h i j k l m n p q a' b' c' d' e' f' g' h' i' j' k' l' m' n' p' q',
  a = a' -> b = b' -> c = c' -> d = d' -> e = e' -> f = f' -> g = g' -> h = h' ->
  i = i' -> j = j' -> k = k' -> l = l' -> m = m' -> n = n' -> p = p' -> q = q' ->
  M4 a b c d e f g h i j k l m n p q = M4 a' b' c' d' e' f' g' h' i' j' k' l' m' n' p' q'.
Proof. congruence. Qed.
Lemma M4_mul : forall a b c d e f g h i j k l a' b' c' d' e' f' g' h' i' j' k' l',
  rmul 4 4 4 (M4 a b c d e f g h i j k l 0 0 0 1) (M4 a' b' c' d' e' f' g' h' i' j' k' l' 0 0 0 1)
  = M4 (a * a' + b * e' + c * i') (a * b' + b * f' + c * j') (a * c' + b * g' + c * k') (a * d' + b * h' + c * l' + d)
       (e * a' + f * e' + g * i') (e * b' + f * f' + g * j') (e * c' + f * g' + g * k') (e * d' + f * h' + g * l' + h)
       (i * a' + j * e' + k * i') (i * b' + j * f' + k * j') (i * c' + j * g' + k * k') (i * d' + j * h' + k * l' + l)
       0 0 0 1.
Proof.
  intros. unfold rmul, of_ent, ent, M4. cbn -[Rmult Rplus]. listeq; try reflexivity; ring.
Qed.
Lemma M4_trans : forall a b c d e f g h i j k l m n p q,
  rtrans 4 4 (M4 a b c d e f g h i j k l m n p q) = M4 a e i m b f j n c g k p d h l q.
Proof. reflexivity. Qed.
Lemma M4_id : rid 4 = M4 1 0 0 0 0 1 0 0 0 0 1 0 0 0 0 1.
Proof. reflexivity. Qed.
Ltac xr := cbn [o_add o_sub o_mul o_neg o_of_Z XRops X1 X2 cst f_cos f_sin XRlibm].

(** ** Axis and angle *)
Definition Raa (u : list R) (s c : R) : list (list R) :=
  let x := nth 0 u 0 in let y := nth 1 u 0 in let z := nth 2 u 0 in
  M4 ((1 - c) * x * x + c) ((1 - c) * x * y - s * z) ((1 - c) * x * z + s * y) 0
     ((1 - c) * x * y + s * z) ((1 - c) * y * y + c) ((1 - c) * y * z - s * x) 0
     ((1 - c) * x * z - s * y) ((1 - c) * y * z + s * x) ((1 - c) * z * z + c) 0
     0 0 0 1.
Lemma X_rotation_aa : forall u th, length u = 3%nat -> rotation_axis_angle (vS u) (Some th) = mS (Raa u (sin th) (cos th)).
Proof.
  intros u th Hu. unfold rotation_axis_angle. rewrite !X_get. xr. rewrite cos_neg, sin_neg. rewrite rows4.
  apply (f_equal (map (map (@Some R)))). unfold Raa. apply M4_eq; ring.
Qed.
Lemma Raa_acts : forall u th p, length u = 3%nat -> length p = 3%nat ->
  m_mul_p 4 (mS (Raa u (sin th) (cos th))) (vS p) = vS (rrot u th p).
Proof.
  intros u th p Hu Hp. vec3 u. vec3 p. unfold Raa. rewrite act4. f_equal. unfold rrot, radd, rscale.
  cbn [nth map zip rcross rdot]. listeq; try reflexivity; ring.
Qed.
Lemma Raa_trans : forall u s c, rtrans 4 4 (Raa u s c) = Raa u (- s) c.
Proof. intros. unfold Raa. rewrite M4_trans. apply M4_eq; ring. Qed.
Lemma Raa_mul : forall u s c s' c', length u = 3%nat -> rdot u u = 1 ->
  rmul 4 4 4 (Raa u s c) (Raa u s' c') = Raa u (s * c' + c * s') (c * c' - s * s').
Proof.
  intros u s c s' c' Hu H. vec3 u. simpl in H. unfold Raa. rewrite M4_mul. cbn [nth].
  assert (K : u2 * u2 = 1 - u0 * u0 - u1 * u1) by lra. clear Hu H.
  apply M4_eq; try ring; ring [K].
Qed.
Lemma Raa_id : forall u, Raa u 0 1 = rid 4.
Proof. intros. rewrite M4_id. unfold Raa. apply M4_eq; ring. Qed.
Lemma Raa_orthogonal : forall u th, length u = 3%nat -> rdot u u = 1 -> orthogonal 4 (Raa u (sin th) (cos th)).
Proof.
  intros u th Hu H. split; rewrite Raa_trans, Raa_mul by auto; rewrite <- (Raa_id u);
    pose proof (sin2_cos2 th) as E; unfold Rsqr in E; f_equal; lra.
Qed.
Lemma Raa_shape : forall u s c, is_mat 4 4 (Raa u s c).
Proof. intros. apply M4_shape. Qed.
Lemma Raa_det : forall u th, length u = 3%nat -> rdot u u = 1 -> m_det 4 (mS (Raa u (sin th) (cos th))) = Some 1.
Proof.
  intros u th Hu H. rewrite X_det by apply Raa_shape. f_equal.
  assert (E : Raa u (sin th) (cos th) = rmul 4 4 4 (Raa u (sin (th / 2)) (cos (th / 2))) (Raa u (sin (th / 2)) (cos (th / 2)))).
  { rewrite Raa_mul by auto. destruct (half_angle th) as (E1 & E2 & _). f_equal; lra. }
  destruct (Raa_orthogonal u th Hu H) as [O _]. apply (f_equal (fun A => ldet 4 (ent A))) in O.
  rewrite ldet_id, ldet_mul, ldet_trans in O. rewrite E in *. rewrite ldet_mul in *. 
  set (d := ldet 4 (ent (Raa u (sin (th / 2)) (cos (th / 2))))) in *. nra.
Qed.
(** ** C35 *)
Lemma rotation_rodrigues : forall u th p, length u = 3%nat -> length p = 3%nat ->
  m_mul_p 4 (rotation_axis_angle (vS u) (Some th)) (vS p) = vS (rrot u th p).
Proof. intros. rewrite X_rotation_aa by auto. now apply Raa_acts. Qed.
Lemma rotation_is_rotation : forall u th, length u = 3%nat -> rdot u u = 1 ->
  exists M, rotation_axis_angle (vS u) (Some th) = mS M /\ affine 3 M /\ orthogonal 4 M /\ m_det 4 (mS M) = Some 1
    /\ m_mul_p 4 (mS M) (vS u) = vS u.
Proof.
  intros u th Hu H. exists (Raa u (sin th) (cos th)). split; [now apply X_rotation_aa|].
  split; [apply M4_affine|]. split; [now apply Raa_orthogonal|]. split; [now apply Raa_det|].
  rewrite Raa_acts by auto. f_equal. unfold rrot. rewrite H.
  assert (E : rcross u u = rzero 3). { vec3 u. unfold rzero. simpl. listeq; try reflexivity; ring. }
  rewrite E. vec3 u. unfold rzero. unfold radd, rscale. cbn [repeat map zip]. listeq; try reflexivity; ring.
Qed.
Lemma rotations_add : forall u a b, length u = 3%nat -> rdot u u = 1 ->
  mmul4 (rotation_axis_angle (vS u) (Some a)) (rotation_axis_angle (vS u) (Some b)) = rotation_axis_angle (vS u) (Some (a + b))
  /\ rotation_axis_angle (vS u) (Some 0) = m_identity 4 4
  /\ m_transpose 4 (rotation_axis_angle (vS u) (Some a)) = rotation_axis_angle (vS u) (Some (- a)).
Proof.
  intros u a b Hu H. rewrite !X_rotation_aa by auto. rewrite X_m_mul, X_m_identity, X_transpose by apply Raa_shape.
  rewrite Raa_mul, Raa_trans by auto. rewrite sin_plus, cos_plus, sin_0, cos_0, Raa_id, sin_neg, cos_neg. auto.
Qed.
(** Rotations preserve lengths, angles and orientation. *)
Lemma rrot_isometry : forall u th p q, length u = 3%nat -> length p = 3%nat -> length q = 3%nat -> rdot u u = 1 ->
  rdot (rrot u th p) (rrot u th q) = rdot p q /\ rcross (rrot u th p) (rrot u th q) = rrot u th (rcross p q).
Proof.
  intros u th p q Hu Hp Hq H. rewrite <- !axis_angle_act by auto using rcross_length.
  set (k := Q _ _). assert (Hk : is_quat k) by (unfold is_quat, k; cbn [q_v]; now rewrite rscale_length).
  assert (Hn : rq_norm2 k = 1).
  { unfold rq_norm2, k. cbn [q_r q_v]. rewrite rdot_scale_l, rdot_scale_r, H.
    destruct (half_angle th) as (_ & _ & E). lra. }
  rewrite rq_act_dot, rq_act_cross, Hn by auto. rewrite rscale_1. split; auto. ring.
Qed.
Definition Rquat (w x y z : R) : list (list R) :=
  M4 (1 - 2 * (y * y + z * z)) (2 * (x * y - z * w)) (2 * (x * z + y * w)) 0
     (2 * (x * y + z * w)) (1 - 2 * (x * x + z * z)) (2 * (y * z - x * w)) 0
     (2 * (x * z - y * w)) (2 * (y * z + x * w)) (1 - 2 * (x * x + y * y)) 0
     0 0 0 1.
Lemma X_rotation_quat : forall w x y z, rotation_quat (qlift (Q w [x; y; z])) = mS (Rquat w x y z).
Proof. intros. reflexivity. Qed.
Lemma rotation_quat_acts : forall q p, is_quat q -> rq_norm2 q = 1 -> length p = 3%nat ->
  m_mul_p 4 (rotation_quat (qlift q)) (vS p) = q_rotate (qlift q) (vS p).
Proof.
  intros q p Hq Hn Hp. rewrite X_q_rotate by auto. quat3 q. vec3 p. rewrite X_rotation_quat.
  unfold Rquat. rewrite act4. f_equal. unfold rq_norm2 in Hn. cbn [q_r q_v rdot] in Hn.
  assert (K : qr * qr = 1 - qx * qx - qy * qy - qz * qz) by lra.
  unfold rq_act, radd, rscale. cbn [q_r q_v rdot rcross map zip]. listeq; try reflexivity; ring [K].
Qed.
Lemma rotation_quat_agrees : forall u th, length u = 3%nat -> rdot u u = 1 ->
  exists q, q_axis_angle (vS u) (Some th) = Ret q /\ rotation_quat q = rotation_axis_angle (vS u) (Some th).
Proof.
  intros u th Hu H. eexists. split; [now apply X_q_axis_angle|]. rewrite X_rotation_aa by auto.
  vec3 u. unfold rscale. cbn [map]. rewrite X_rotation_quat. apply (f_equal (map (map (@Some R)))).
  destruct (half_angle th) as (E1 & E2 & E3). unfold Rquat, Raa. cbn [nth]. rewrite E1, E2.
  set (s := sin (th / 2)) in *. set (c := cos (th / 2)) in *. simpl in H.
  assert (K : u2 * u2 = 1 - u0 * u0 - u1 * u1) by lra. assert (K2 : c * c = 1 - s * s) by lra.
  apply M4_eq; try reflexivity; ring [K K2].
Qed.
Lemma rotation_from_to_ok : forall f t, length f = 3%nat -> length t = 3%nat -> rdot f f = 1 -> rdot t t = 1 ->
  exists m r, rotation_from_to (vS f) (vS t) = Ret m /\ m_mul_p 4 m (vS f) = vS r
    /\ (Rabs (rdot f t) < 1 - 1 / 1000 -> r = t) /\ (t = f -> r = t) /\ (t = rneg f -> r = t)
    /\ rdot (rsub r t) (rsub r t) <= 2 / 1000.
Proof.
  intros f t Hf Ht Uf Ut. destruct (quat_from_to f t Hf Ht Uf Ut) as (q & r & E & Hq & Hn & Er & H).
  exists (rotation_quat (qlift q)), r. unfold rotation_from_to. rewrite E. cbn [bind]. split; auto.
  split; auto. now rewrite rotation_quat_acts.
Qed.

(** ** Roll, pitch and yaw *)
Definition Rrpy (sr cr sp cp sy cy : R) : list (list R) :=
  M4 (cy * cp) (cy * sp * sr - sy * cr) (cy * sp * cr + sy * sr) 0
     (sy * cp) (sy * sp * sr + cy * cr) (sy * sp * cr - cy * sr) 0
     (- sp) (cp * sr) (cp * cr) 0
     0 0 0 1.
Lemma X_rotation_rpy : forall r p y, rotation_rpy (Some r) (Some p) (Some y)
  = mS (Rrpy (sin r) (cos r) (sin p) (cos p) (sin y) (cos y)).
Proof.
  intros. unfold rotation_rpy. xr. rewrite !rows4. rewrite !X_m_mul, !M4_mul. apply (f_equal (map (map (@Some R)))).
  unfold Rrpy. apply M4_eq; ring.
Qed.
Lemma rpy_acts : forall r p y v, length v = 3%nat ->
  m_mul_p 4 (rotation_rpy (Some r) (Some p) (Some y)) (vS v)
  = vS (rrot [0; 0; 1] y (rrot [0; 1; 0] p (rrot [1; 0; 0] r v))).
Proof.
  intros r p y v Hv. vec3 v. rewrite X_rotation_rpy. unfold Rrpy. rewrite act4. f_equal.
  unfold rrot, radd, rscale. cbn [map zip rdot rcross]. listeq; try reflexivity; ring.
Qed.
Lemma rpy_product : forall r p y,
  rotation_rpy (Some r) (Some p) (Some y)
  = mmul4 (mmul4 (rotation_axis_angle (vS [0; 0; 1]) (Some y)) (rotation_axis_angle (vS [0; 1; 0]) (Some p)))
          (rotation_axis_angle (vS [1; 0; 0]) (Some r)).
Proof.
  intros. rewrite X_rotation_rpy, !X_rotation_aa by reflexivity. unfold Raa, Rrpy. rewrite !X_m_mul, !M4_mul.
  apply (f_equal (map (map (@Some R)))). cbn [nth]. apply M4_eq; ring.
Qed.
Lemma rpy_is_rotation : forall r p y,
  exists M, rotation_rpy (Some r) (Some p) (Some y) = mS M /\ affine 3 M /\ orthogonal 4 M /\ m_det 4 (mS M) = Some 1.
Proof.
  intros r p y. exists (Rrpy (sin r) (cos r) (sin p) (cos p) (sin y) (cos y)).
  split; [apply X_rotation_rpy|]. split; [apply M4_affine|].
  pose proof (sin2_cos2 r) as Er. pose proof (sin2_cos2 p) as Ep. pose proof (sin2_cos2 y) as Ey. unfold Rsqr in *.
  split.
  - unfold orthogonal, Rrpy. rewrite M4_trans, M4_id, !M4_mul.
    assert (Kr : sin r * sin r = 1 - cos r * cos r) by lra.
    assert (Kp : sin p * sin p = 1 - cos p * cos p) by lra.
    assert (Ky : sin y * sin y = 1 - cos y * cos y) by lra.
    set (sr := sin r) in *. set (cr := cos r) in *. set (sp := sin p) in *. set (cp := cos p) in *.
    set (sy := sin y) in *. set (cy := cos y) in *.
    split; apply M4_eq; try ring; ring [Kr Kp Ky].
  - rewrite <- X_rotation_rpy, rpy_product. rewrite !X_rotation_aa by reflexivity.
    rewrite !X_m_mul, X_det by apply rmul_shape. rewrite !ldet_mul.
    assert (D : forall u a, length u = 3%nat -> rdot u u = 1 -> ldet 4 (ent (Raa u (sin a) (cos a))) = 1).
    { intros u a Hu H. pose proof (Raa_det u a Hu H) as E. rewrite X_det in E by apply Raa_shape. now injection E. }
    rewrite !D; try reflexivity; try (simpl; ring). f_equal. ring.
Qed.

(** ** C36 *)
Lemma atan2_unit : forall x y, x * x + y * y = 1 -> cos (Ratan2 y x) = x /\ sin (Ratan2 y x) = y.
Proof.
  intros x y H.
  assert (A : x <> 0 -> sqrt (1 + (y / x)²) = / Rabs x).
  { intros N. replace (1 + (y / x)²) with (/ x²).
    - rewrite <- sqrt_Rsqr_abs. now rewrite <- sqrt_inv.
    - unfold Rsqr. field_simplify_eq; auto. nra. }
  unfold Ratan2. destruct (Rlt_bool_spec 0 x) as [P|P].
  - rewrite cos_atan, sin_atan, A by lra. rewrite Rabs_pos_eq by lra. split; field; lra.
  - destruct (Rlt_bool_spec x 0) as [Q|Q].
    + assert (E : forall a, cos (a - PI) = - cos a /\ sin (a - PI) = - sin a /\ cos (a + PI) = - cos a /\ sin (a + PI) = - sin a).
      { intros a. rewrite cos_minus, sin_minus, cos_plus, sin_plus, cos_PI, sin_PI. repeat split; ring. }
      destruct (E (atan (y / x))) as (E1 & E2 & E3 & E4).
      destruct (Rlt_bool y 0); rewrite ?E1, ?E2, ?E3, ?E4, cos_atan, sin_atan, A by lra;
        rewrite Rabs_left by lra; split; field; lra.
    + assert (x = 0) by lra. subst x. assert (Hy : (y - 1) * (y + 1) = 0) by lra.
      destruct (Rlt_bool_spec 0 y); [rewrite cos_PI2, sin_PI2; nra|].
      destruct (Rlt_bool_spec y 0); [|nra]. rewrite cos_neg, sin_neg, cos_PI2, sin_PI2. nra.
Qed.
Lemma euler_some : forall m,
  rotation_matrix_to_euler_angles (mS m) =
  if Req_bool (Rabs (ent m 2 0)) 1 then
    if Req_bool (ent m 2 0) (-1) then [Some (Ratan2 (ent m 0 1) (ent m 0 2)); Some (PI / 2); Some 0]
    else [Some (Ratan2 (- ent m 0 1) (- ent m 0 2)); Some (- (PI / 2)); Some 0]
  else
    let theta := o_neg (f_asin (Some (ent m 2 0))) in
    let c := f_cos theta in
    [f_atan2 (o_div (Some (ent m 2 1)) c) (o_div (Some (ent m 2 2)) c); theta;
     f_atan2 (o_div (Some (ent m 1 0)) c) (o_div (Some (ent m 0 0)) c)].
Proof.
  intros m. unfold rotation_matrix_to_euler_angles. rewrite !mS_get, X_abs. cbn [o_eq XRops Xcmp cst o_of_Z].
  change (IZR 1) with 1. change (IZR (-1)) with (-1).
  assert (HP : half_pi = Some (PI / 2)). { unfold half_pi. cbn [k_pi XRlibm]. apply X_half. }
  rewrite HP. destruct (Req_bool (Rabs (ent m 2 0)) 1); cbn [negb]; [|reflexivity].
  destruct (Req_bool (ent m 2 0) (-1)); reflexivity.
Qed.
Lemma euler_roundtrip : forall r p y,
  exists r' p' y', rotation_matrix_to_euler_angles (rotation_rpy (Some r) (Some p) (Some y)) = [Some r'; Some p'; Some y']
    /\ rotation_rpy (Some r') (Some p') (Some y') = rotation_rpy (Some r) (Some p) (Some y).
Proof.
  intros r p y. rewrite !X_rotation_rpy, euler_some. unfold Rrpy at 1 2 3 4 5 6 7 8 9 10 11. unfold ent, M4. cbn [nth].
  pose proof (sin2_cos2 r) as Er. pose proof (sin2_cos2 p) as Ep. pose proof (sin2_cos2 y) as Ey. unfold Rsqr in *.
  destruct (Req_bool_spec (Rabs (- sin p)) 1) as [H|H].
  - assert (Cp : cos p = 0).
    { assert (Rsqr (sin p) = 1). { rewrite Rabs_Ropp in H. rewrite Rsqr_abs, H. unfold Rsqr. ring. }
      unfold Rsqr in *. nra. }
    destruct (Req_bool_spec (- sin p) (-1)) as [S|S].
    + assert (Sp : sin p = 1) by lra. do 3 eexists. split; [reflexivity|]. rewrite X_rotation_rpy.
      apply (f_equal (map (map (@Some R)))).
      destruct (atan2_unit (cos y * sin p * cos r + sin y * sin r) (cos y * sin p * sin r - sin y * cos r)) as [-> ->].
      { rewrite Sp. transitivity ((sin r * sin r + cos r * cos r) * (sin y * sin y + cos y * cos y)); [ring|]. rewrite Er, Ey. ring. }
      rewrite sin_0, cos_0, sin_PI2, cos_PI2. rewrite Sp, Cp. unfold Rrpy. apply M4_eq; ring.
    + assert (Sp : sin p = -1). { destruct (Rcase_abs (- sin p)); [rewrite Rabs_left in H by lra|rewrite Rabs_pos_eq in H by lra]; lra. }
      do 3 eexists. split; [reflexivity|]. rewrite X_rotation_rpy.
      apply (f_equal (map (map (@Some R)))).
      destruct (atan2_unit (- (cos y * sin p * cos r + sin y * sin r)) (- (cos y * sin p * sin r - sin y * cos r))) as [-> ->].
      { rewrite Sp. transitivity ((sin r * sin r + cos r * cos r) * (sin y * sin y + cos y * cos y)); [ring|]. rewrite Er, Ey. ring. }
      rewrite sin_0, cos_0, sin_neg, cos_neg, sin_PI2, cos_PI2. rewrite Sp, Cp. unfold Rrpy. apply M4_eq; ring.
  - assert (B : -1 <= - sin p <= 1) by (pose proof (SIN_bound p); lra).
    assert (N : cos p <> 0).
    { intros Z. rewrite Z in Ep. apply H. rewrite Rabs_Ropp. assert ((sin p - 1) * (sin p + 1) = 0) by lra.
      destruct (Rmult_integral _ _ H0); [replace (sin p) with 1 by lra; rewrite Rabs_R1|replace (sin p) with (-1) by lra; rewrite Rabs_left by lra]; lra. }
    cbn [f_asin XRlibm Xunit]. rewrite Rlt_bool_false by (apply Rabs_le; lra).
    cbn [o_neg XRops X1 f_cos XRlibm].
    assert (Ct : cos (- asin (- sin p)) = Rabs (cos p)).
    { rewrite cos_neg, cos_asin by auto. replace (1 - (- sin p)²) with (Rsqr (cos p)) by (unfold Rsqr; lra). apply sqrt_Rsqr_abs. }
    assert (St : sin (- asin (- sin p)) = sin p). { rewrite sin_neg, sin_asin by auto. ring. }
    assert (Na : Rabs (cos p) <> 0) by now apply Rabs_no_R0.
    cbn zeta. rewrite !Ct. rewrite !X_div by auto. cbn [f_atan2 XRlibm X2].
    do 3 eexists. split; [reflexivity|]. rewrite X_rotation_rpy. apply (f_equal (map (map (@Some R)))).
    rewrite St, Ct.
    assert (Sg : exists g, g * g = 1 /\ cos p = g * Rabs (cos p)).
    { destruct (Rcase_abs (cos p)); [exists (-1); rewrite Rabs_left by auto|exists 1; rewrite Rabs_pos_eq by lra]; split; lra. }
    destruct Sg as (g & Gg & Eg). set (a := Rabs (cos p)) in *.
    assert (D : forall t, cos p * t / a = g * t). { intros t. rewrite Eg. field. auto. }
    assert (D' : forall t, t * cos p / a = g * t). { intros t. rewrite Eg. field. auto. }
    rewrite !D, !D'.
    destruct (atan2_unit (g * cos r) (g * sin r)) as [-> ->].
    { transitivity ((g * g) * (sin r * sin r + cos r * cos r)); [ring|]. rewrite Gg, Er. ring. }
    destruct (atan2_unit (g * cos y) (g * sin y)) as [-> ->].
    { transitivity ((g * g) * (sin y * sin y + cos y * cos y)); [ring|]. rewrite Gg, Ey. ring. }
    rewrite Eg. unfold Rrpy. apply M4_eq; try ring; ring [Gg].
Qed.
