(** More proofs about Euler angles (C36): every rotation matrix, ranges, and angles in the ranges. *)
From Coq Require Import ZArith Reals List Bool Lra Lia Psatz.
From Flocq Require Import Core.
From Verif Require Import Ops M_scalar M_vec M_mat M_matext Inst_XR P_xr S_vec S_mat S_affine S_rot P_vec P_mat P_mat2 P_mat3 P_ldet P_det P_affine P_rotmat.
Import ListNotations.
Local Open Scope R_scope.

(** ** The range of atan2 *)
Lemma Ratan2_range : forall y x, - PI < Ratan2 y x <= PI.
Proof.
  intros y x. pose proof PI_RGT_0 as P. unfold Ratan2. pose proof (atan_bound (y / x)) as A.
  destruct (Rlt_bool_spec 0 x); [ lra | ]. destruct (Rlt_bool_spec x 0) as [N|N].
  - destruct (Rlt_bool_spec y 0) as [Y|Y].
    + assert (0 < atan (y / x)); [ | lra ]. rewrite <- atan_0. apply atan_increasing.
      replace (y / x) with ((- y) / (- x)) by (field; lra). apply Rdiv_lt_0_compat; lra.
    + assert (atan (y / x) <= 0); [ | lra ]. destruct (Req_dec y 0) as [->|Y0]; [ unfold Rdiv; rewrite Rmult_0_l, atan_0; lra | ].
      left. rewrite <- atan_0. apply atan_increasing. replace (y / x) with (- (y / - x)) by (field; lra).
      assert (0 < y / - x) by (apply Rdiv_lt_0_compat; lra). lra.
  - destruct (Rlt_bool 0 y); [ lra | ]. destruct (Rlt_bool y 0); lra.
Qed.
Lemma same_angle : forall a b, - PI < a <= PI -> - PI < b <= PI -> cos a = cos b -> sin a = sin b -> a = b.
Proof.
  intros a b Ha Hb Hc Hs. pose proof PI_RGT_0 as P.
  assert (W : forall u v, - PI < u <= PI -> - PI < v <= PI -> u < v -> cos u = cos v -> sin u = sin v -> False).
  { clear. intros u v Hu Hv L Hc Hs. pose proof PI_RGT_0 as P.
    assert (C : cos ((v - u) / 2) * cos ((v - u) / 2) = 1).
    { assert (D : cos (v - u) = 1). { rewrite cos_minus, Hc, Hs. pose proof (sin2_cos2 v) as E. unfold Rsqr in E. lra. }
      replace (v - u) with (2 * ((v - u) / 2)) in D by field. rewrite cos_2a_cos in D. lra. }
    assert (S : 0 < sin ((v - u) / 2)) by (apply sin_gt_0; lra).
    pose proof (sin2_cos2 ((v - u) / 2)) as E. unfold Rsqr in E. nra. }
  destruct (Rtotal_order a b) as [L|[E|L]]; [ exfalso; now apply (W a b) | exact E | exfalso; now apply (W b a) ].
Qed.
Lemma atan2_sin_cos : forall a, - PI < a <= PI -> Ratan2 (sin a) (cos a) = a.
Proof.
  intros a Ha. pose proof (sin2_cos2 a) as E. unfold Rsqr in E. destruct (atan2_unit (cos a) (sin a)) as [C S]; [ lra | ].
  apply same_angle; auto. apply Ratan2_range.
Qed.
Lemma euler_recovers : forall r p y, - PI < r <= PI -> - (PI / 2) < p < PI / 2 -> - PI < y <= PI ->
  rotation_matrix_to_euler_angles (rotation_rpy (Some r) (Some p) (Some y)) = [Some r; Some p; Some y].
Proof.
  intros r p y Hr Hp Hy. rewrite X_rotation_rpy, euler_some. unfold Rrpy, ent, M4. cbn [nth].
  assert (C : 0 < cos p) by (apply cos_gt_0; lra). pose proof (sin2_cos2 p) as Ep. unfold Rsqr in Ep. pose proof (SIN_bound p) as B.
  destruct (Req_bool_spec (Rabs (- sin p)) 1) as [H|H].
  { exfalso. assert (Q : Rabs (- sin p) * Rabs (- sin p) = 1) by (rewrite H; ring). rewrite <- Rabs_mult, Rabs_pos_eq in Q by nra. nra. }
  cbn [f_asin XRlibm Xunit]. rewrite Rlt_bool_false by (apply Rabs_le; lra). cbn [o_neg XRops X1 f_cos XRlibm].
  assert (T : - asin (- sin p) = p). { rewrite asin_opp, asin_sin by lra. ring. }
  cbn zeta. rewrite T. rewrite !X_div by lra. cbn [f_atan2 XRlibm X2].
  replace (cos p * sin r / cos p) with (sin r) by (field; lra). replace (cos p * cos r / cos p) with (cos r) by (field; lra).
  replace (sin y * cos p / cos p) with (sin y) by (field; lra). replace (cos y * cos p / cos p) with (cos y) by (field; lra).
  now rewrite !atan2_sin_cos.
Qed.
(** ** Every rotation matrix has Euler angles *)
Lemma angle_exists : forall x y, x * x + y * y = 1 -> exists a, cos a = x /\ sin a = y.
Proof. intros x y H. exists (Ratan2 y x). now apply atan2_unit. Qed.
Lemma four_cases : forall v : list R, length v = 4%nat -> exists a b c d, v = [a; b; c; d].
Proof. intros v H. destruct v as [|? [|? [|? [|? [|]]]]]; try discriminate. eauto. Qed.
Lemma mat4_cases : forall M, is_mat 4 4 M -> exists a b c d e f g h i j k l m n p q, M = M4 a b c d e f g h i j k l m n p q.
Proof.
  intros M [L F]. destruct M as [|c0 [|c1 [|c2 [|c3 [|]]]]]; try discriminate.
  inversion F as [|? ? F0 F']; subst. inversion F' as [|? ? F1 F'']; subst. inversion F'' as [|? ? F2 F3']; subst. inversion F3' as [|? ? F3 _]; subst.
  destruct (four_cases c0 F0) as (? & ? & ? & ? & ->). destruct (four_cases c1 F1) as (? & ? & ? & ? & ->).
  destruct (four_cases c2 F2) as (? & ? & ? & ? & ->). destruct (four_cases c3 F3) as (? & ? & ? & ? & ->).
  do 16 eexists. reflexivity.
Qed.
Lemma so3 : forall a b c e f g i j k,
  a * a + e * e + i * i = 1 -> b * b + f * f + j * j = 1 -> c * c + g * g + k * k = 1 ->
  a * b + e * f + i * j = 0 -> a * c + e * g + i * k = 0 -> b * c + f * g + j * k = 0 ->
  a * (f * k - g * j) - b * (e * k - g * i) + c * (e * j - f * i) = 1 ->
  b = g * i - e * k /\ g = i * b - a * j /\ f = a * k - c * i /\ c = e * j - i * f.
Proof.
  intros a b c e f g i j k H1 H2 H3 H4 H5 H6 D.
  assert (SQ : forall x y z, x * x + y * y + z * z = 0 -> x = 0 /\ y = 0 /\ z = 0) by (intros; repeat split; nra).
  (* col2 = col0 x col1 *)
  assert (A1 : (c - (e * j - i * f)) * (c - (e * j - i * f)) + (g - (i * b - a * j)) * (g - (i * b - a * j)) + (k - (a * f - e * b)) * (k - (a * f - e * b)) = 0).
  { transitivity ((c * c + g * g + k * k) - 2 * (a * (f * k - g * j) - b * (e * k - g * i) + c * (e * j - f * i))
      + ((a * a + e * e + i * i) * (b * b + f * f + j * j) - (a * b + e * f + i * j) * (a * b + e * f + i * j))); [ ring | ].
    rewrite H1, H2, H3, H4, D. ring. }
  (* col1 = col2 x col0 *)
  assert (A2 : (b - (g * i - k * e)) * (b - (g * i - k * e)) + (f - (k * a - c * i)) * (f - (k * a - c * i)) + (j - (c * e - g * a)) * (j - (c * e - g * a)) = 0).
  { transitivity ((b * b + f * f + j * j) - 2 * (a * (f * k - g * j) - b * (e * k - g * i) + c * (e * j - f * i))
      + ((c * c + g * g + k * k) * (a * a + e * e + i * i) - (a * c + e * g + i * k) * (a * c + e * g + i * k))); [ ring | ].
    rewrite H1, H2, H3, H5, D. ring. }
  apply SQ in A1, A2. repeat split; lra.
Qed.
Lemma rotation_has_angles : forall M, affine 3 M -> orthogonal 4 M -> m_det 4 (mS M) = Some 1 -> exists r p y, mS M = rotation_rpy (Some r) (Some p) (Some y).
Proof.
  intros M [HM LM] [O1 O2] D. destruct (mat4_cases M HM) as (a & b & c & d & e & f & g & h & i & j & k & l & m & n & p & q & ->).
  assert (Em := LM 0%nat ltac:(lia)). assert (En := LM 1%nat ltac:(lia)). assert (Ep := LM 2%nat ltac:(lia)). assert (Eq := LM 3%nat ltac:(lia)).
  cbv [ent M4 nth delta Nat.eqb] in Em, En, Ep, Eq. subst m n p q. clear LM.
  rewrite X_det in D by exact HM. injection D as D. unfold M4 in D. cbn in D. unfold sgn, skip in D. cbn in D.
  assert (G2 : forall u v, ent (rmul 4 4 4 (rtrans 4 4 (M4 a b c d e f g h i j k l 0 0 0 1)) (M4 a b c d e f g h i j k l 0 0 0 1)) u v = ent (rid 4) u v) by (intros; now rewrite O2).
  assert (G1 : forall u v, ent (rmul 4 4 4 (M4 a b c d e f g h i j k l 0 0 0 1) (rtrans 4 4 (M4 a b c d e f g h i j k l 0 0 0 1))) u v = ent (rid 4) u v) by (intros; now rewrite O1).
  clear O1 O2 HM.
  assert (C00 := G2 0%nat 0%nat). assert (C11 := G2 1%nat 1%nat). assert (C22 := G2 2%nat 2%nat). assert (C33 := G2 3%nat 3%nat).
  assert (C01 := G2 0%nat 1%nat). assert (C02 := G2 0%nat 2%nat). assert (C12 := G2 1%nat 2%nat).
  assert (R1 := G1 1%nat 1%nat). assert (R2 := G1 2%nat 2%nat). clear G1 G2.
  cbv [ent rmul rtrans of_ent map seq nth Rsum rid delta Nat.eqb M4] in C00, C11, C22, C33, C01, C02, C12, R1, R2.
  assert (Z : d = 0 /\ h = 0 /\ l = 0) by (repeat split; nra). destruct Z as (-> & -> & ->).
  destruct (so3 a b c e f g i j k) as (B1 & B2 & B3 & B4); try lra. clear D.
  assert (Q : 0 <= 1 - i * i) by nra. destruct (Req_dec (1 - i * i) 0) as [S|S].
  - assert (a = 0 /\ e = 0 /\ j = 0 /\ k = 0) by (repeat split; nra). destruct H as (-> & -> & -> & ->).
    destruct (angle_exists f (- g)) as (r & Cr & Sr); [ nra | ]. destruct (angle_exists 0 (- i)) as (p & Cp & Sp); [ nra | ].
    exists r, p, 0. rewrite X_rotation_rpy. f_equal. unfold Rrpy. rewrite Cr, Sr, Cp, Sp, sin_0, cos_0. apply M4_eq; lra.
  - assert (P : 0 < 1 - i * i) by lra. set (t := sqrt (1 - i * i)). assert (T : 0 < t) by now apply sqrt_lt_R0. assert (T2 : t * t = 1 - i * i) by now apply sqrt_sqrt.
    destruct (angle_exists t (- i)) as (p & Cp & Sp); [ nra | ].
    destruct (angle_exists (k / t) (j / t)) as (r & Cr & Sr). { transitivity ((k * k + j * j) / (t * t)); [ field; lra | ]. rewrite T2. replace (k * k + j * j) with (1 - i * i) by lra. field. lra. }
    destruct (angle_exists (a / t) (e / t)) as (y & Cy & Sy). { transitivity ((a * a + e * e) / (t * t)); [ field; lra | ]. rewrite T2. replace (a * a + e * e) with (1 - i * i) by lra. field. lra. }
    exists r, p, y. rewrite X_rotation_rpy. f_equal. unfold Rrpy. rewrite Cr, Sr, Cp, Sp, Cy, Sy.
    assert (E : forall x z, x * (t * t) = z -> x = z / (t * t)) by (intros x z <-; field; lra).
    apply M4_eq; try reflexivity; try (field; lra); try lra.
    + rewrite (E b (- (a * i * j) - e * k)); [ field; lra | ]. rewrite T2. rewrite B2 in B1. nra.
    + rewrite (E c (- (a * i * k) + e * j)); [ field; lra | ]. rewrite T2. rewrite B3 in B4. nra.
    + rewrite (E f (- (e * i * j) + a * k)); [ field; lra | ]. rewrite T2. rewrite B4 in B3. nra.
    + rewrite (E g (- (e * i * k) - a * j)); [ field; lra | ]. rewrite T2. rewrite B1 in B2. nra.
Qed.
Lemma euler_any : forall M, affine 3 M -> orthogonal 4 M -> m_det 4 (mS M) = Some 1 ->
  exists r p y, rotation_matrix_to_euler_angles (mS M) = [Some r; Some p; Some y] /\ rotation_rpy (Some r) (Some p) (Some y) = mS M.
Proof. intros M H1 H2 H3. destruct (rotation_has_angles M H1 H2 H3) as (r & p & y & E). rewrite E. apply euler_roundtrip. Qed.
Lemma euler_range : forall M r p y, rotation_matrix_to_euler_angles (mS M) = [Some r; Some p; Some y] -> - PI < r <= PI /\ - (PI / 2) <= p <= PI / 2 /\ - PI < y <= PI.
Proof.
  intros M r p y. pose proof PI_RGT_0 as P. rewrite euler_some. destruct (Req_bool_spec (Rabs (ent M 2 0)) 1) as [H|H].
  - destruct (Req_bool (ent M 2 0) (-1)); intros E; injection E as <- <- <-; (split; [ apply Ratan2_range | lra ]).
  - cbn [f_asin XRlibm Xunit]. destruct (Rlt_bool (1) (Rabs (ent M 2 0))) eqn:L; [ discriminate | ]. cbn [o_neg XRops X1 f_cos XRlibm]. cbn zeta. intros E.
    assert (E2 := f_equal (fun v => nth 1 v None) E). cbn [nth] in E2. injection E2 as <-.
    assert (E1 := f_equal (fun v => nth 0 v None) E). assert (E3 := f_equal (fun v => nth 2 v None) E). cbn [nth] in E1, E3. clear E.
    assert (R : forall u v w, f_atan2 (u : XR) v = Some w -> - PI < w <= PI). { intros [u|] [v|] w Q; try discriminate. injection Q as <-. apply Ratan2_range. }
    split; [ exact (R _ _ _ E1) | ]. split; [ | exact (R _ _ _ E3) ]. pose proof (asin_bound (ent M 2 0)). lra.
Qed.
