(** Proofs about quaternions. *)
From Coq Require Import ZArith Reals List Bool Lra Lia.
From Flocq Require Import Core.
From Verif Require Import Ops M_scalar M_vec M_mat M_quat Inst_XR P_xr S_vec S_rot S_quat P_vec P_vec2 P_ord P_compare.
Import ListNotations.
Local Open Scope R_scope.

Ltac quat3 q := let r := fresh q "r" in let x := fresh q "x" in let y := fresh q "y" in let z := fresh q "z" in
  destruct q as [r [|x [|y [|z [|]]]]]; try discriminate; unfold is_quat in *; cbn [q_v q_r] in *.
Ltac listeq := repeat match goal with |- _ :: _ = _ :: _ => apply f_equal2 end.
Lemma Q_eq : forall T (a b : T) u v, a = b -> u = v -> Q a u = Q b v.
Proof. congruence. Qed.
Ltac qring := unfold rq_mul, rq_conj, rq_opp, rq_scale, rneg, rscale, radd, rsub, zip, rcross, rdot; cbn [q_v q_r map rdot rcross zip];
  try apply Q_eq; ringlist.

Lemma X_q_mul : forall p q, is_quat p -> is_quat q -> q_mul (qlift p) (qlift q) = qlift (rq_mul p q).
Proof.
  intros p q Hp Hq. unfold q_mul, qlift. cbn [q_r q_v]. rewrite X_dot. quat3 p. quat3 q.
  unfold vx, vy, vz. rewrite !X_get. cbn [nth o_add o_mul o_sub XRops X2].
  unfold rq_mul, radd, rscale. cbn [q_r q_v rcross map zip rdot]. apply Q_eq; [f_equal; ring|].
  repeat apply f_equal2; try reflexivity; f_equal; ring.
Qed.
Lemma X_q_conj : forall q, q_conjugate (qlift q) = qlift (rq_conj q).
Proof. intros [r v]. unfold q_conjugate, qlift. cbn [q_r q_v]. now rewrite X_neg. Qed.
Lemma rq_mul_quat : forall p q, is_quat p -> is_quat q -> is_quat (rq_mul p q).
Proof. intros p q Hp Hq. quat3 p. quat3 q. reflexivity. Qed.
Lemma rq_conj_quat : forall q, is_quat q -> is_quat (rq_conj q).
Proof. intros q Hq. quat3 q. reflexivity. Qed.
Lemma rq_assoc : forall p q r, is_quat p -> is_quat q -> is_quat r -> rq_mul p (rq_mul q r) = rq_mul (rq_mul p q) r.
Proof. intros p q r Hp Hq Hr. quat3 p. quat3 q. quat3 r. qring. Qed.
Lemma rq_norm_mul : forall p q, is_quat p -> is_quat q -> rq_norm2 (rq_mul p q) = rq_norm2 p * rq_norm2 q.
Proof. intros p q Hp Hq. quat3 p. quat3 q. unfold rq_norm2. qring. Qed.
Lemma rq_conj_mul : forall p q, is_quat p -> is_quat q -> rq_conj (rq_mul p q) = rq_mul (rq_conj q) (rq_conj p).
Proof. intros p q Hp Hq. quat3 p. quat3 q. qring. Qed.
Lemma rq_mul_conj : forall q, is_quat q -> rq_mul q (rq_conj q) = Q (rq_norm2 q) (rzero 3)
  /\ rq_mul (rq_conj q) q = Q (rq_norm2 q) (rzero 3).
Proof. intros q Hq. quat3 q. unfold rq_norm2, rzero. split; cbn [repeat]; qring. Qed.

(** The vector v under the quaternion q. *)
Definition rq_act (q : quat R) (v : list R) : list R :=
  radd (rscale (q_r q * q_r q - rdot (q_v q) (q_v q)) v)
    (radd (rscale (2 * q_r q) (rcross (q_v q) v)) (rscale (2 * rdot (q_v q) v) (q_v q))).
Lemma rq_sandwich : forall q v, is_quat q -> length v = 3%nat ->
  rq_mul (rq_mul q (Q 0 v)) (rq_conj q) = Q 0 (rq_act q v).
Proof. intros q v Hq Hv. quat3 q. vec3 v. unfold rq_act. qring. Qed.
Lemma X_q_rotate : forall q v, is_quat q -> length v = 3%nat -> q_rotate (qlift q) (vS v) = vS (rq_act q v).
Proof.
  intros q v Hq Hv. unfold q_rotate. change (Q (cst 0) (vS v)) with (qlift (Q 0 v)).
  rewrite X_q_conj, X_q_mul by auto. rewrite X_q_mul by (auto using rq_mul_quat, rq_conj_quat).
  rewrite rq_sandwich by auto. reflexivity.
Qed.
Lemma rq_act_length : forall q v, is_quat q -> length v = 3%nat -> length (rq_act q v) = 3%nat.
Proof. intros q v Hq Hv. quat3 q. vec3 v. reflexivity. Qed.
Lemma rq_act_dot : forall q u v, is_quat q -> length u = 3%nat -> length v = 3%nat ->
  rdot (rq_act q u) (rq_act q v) = rq_norm2 q * rq_norm2 q * rdot u v.
Proof. intros q u v Hq Hu Hv. quat3 q. vec3 u. vec3 v. unfold rq_act, rq_norm2. qring. Qed.
Lemma rq_act_cross : forall q u v, is_quat q -> length u = 3%nat -> length v = 3%nat ->
  rcross (rq_act q u) (rq_act q v) = rscale (rq_norm2 q) (rq_act q (rcross u v)).
Proof. intros q u v Hq Hu Hv. quat3 q. vec3 u. vec3 v. unfold rq_act, rq_norm2. qring. Qed.
Lemma rq_act_linear : forall q u v k, is_quat q -> length u = 3%nat -> length v = 3%nat ->
  rq_act q (radd u v) = radd (rq_act q u) (rq_act q v) /\ rq_act q (rscale k u) = rscale k (rq_act q u).
Proof. intros q u v k Hq Hu Hv. quat3 q. vec3 u. vec3 v. unfold rq_act. split; qring. Qed.
Lemma rq_act_mul : forall p q v, is_quat p -> is_quat q -> length v = 3%nat ->
  rq_act (rq_mul p q) v = rq_act p (rq_act q v).
Proof. intros p q v Hp Hq Hv. quat3 p. quat3 q. vec3 v. unfold rq_act. qring. Qed.
Lemma rq_act_opp : forall q v, is_quat q -> length v = 3%nat -> rq_act (rq_opp q) v = rq_act q v.
Proof. intros q v Hq Hv. quat3 q. vec3 v. unfold rq_act. qring. Qed.

(** ** C37 *)
Lemma quat_product : forall p q, is_quat p -> is_quat q -> q_mul (qlift p) (qlift q) = qlift (rq_mul p q).
Proof. exact X_q_mul. Qed.
Lemma quat_algebra : forall p q r, is_quat p -> is_quat q -> is_quat r ->
  q_mul (qlift p) (q_mul (qlift q) (qlift r)) = q_mul (q_mul (qlift p) (qlift q)) (qlift r)
  /\ q_conjugate (q_mul (qlift p) (qlift q)) = q_mul (q_conjugate (qlift q)) (q_conjugate (qlift p))
  /\ (exists s, q_mul (qlift p) (qlift q) = qlift s /\ rq_norm2 s = rq_norm2 p * rq_norm2 q)
  /\ q_mul (qlift q) (q_conjugate (qlift q)) = qlift (Q (rq_norm2 q) [0; 0; 0])
  /\ q_mul (qlift q) (qlift (Q 1 [0; 0; 0])) = qlift q /\ q_mul (qlift (Q 1 [0; 0; 0])) (qlift q) = qlift q.
Proof.
  intros p q r Hp Hq Hr. rewrite !X_q_conj.
  repeat rewrite X_q_mul by (auto using rq_mul_quat, rq_conj_quat; reflexivity).
  rewrite !X_q_conj. repeat split.
  - now rewrite rq_assoc.
  - now rewrite rq_conj_mul.
  - eexists. split; [reflexivity|]. now apply rq_norm_mul.
  - f_equal. apply rq_mul_conj; auto.
  - f_equal. quat3 q. qring.
  - f_equal. quat3 q. qring.
Qed.
Lemma quat_isometry : forall q u v, is_quat q -> rq_norm2 q = 1 -> length u = 3%nat -> length v = 3%nat ->
  exists u' v', q_rotate (qlift q) (vS u) = vS u' /\ q_rotate (qlift q) (vS v) = vS v'
    /\ length u' = 3%nat /\ length v' = 3%nat
    /\ rdot u' v' = rdot u v /\ rnorm u' = rnorm u
    /\ q_rotate (qlift q) (vS (rcross u v)) = vS (rcross u' v').
Proof.
  intros q u v Hq Hn Hu Hv. exists (rq_act q u), (rq_act q v).
  rewrite !X_q_rotate by (auto using rcross_length). repeat split; auto using rq_act_length.
  - rewrite rq_act_dot, Hn by auto. ring.
  - unfold rnorm. rewrite rq_act_dot, Hn by auto. f_equal. ring.
  - rewrite rq_act_cross, Hn by auto. now rewrite rscale_1.
Qed.
Lemma quat_composition : forall p q v, is_quat p -> is_quat q -> length v = 3%nat ->
  q_rotate (q_mul (qlift p) (qlift q)) (vS v) = q_rotate (qlift p) (q_rotate (qlift q) (vS v)).
Proof.
  intros p q v Hp Hq Hv. rewrite X_q_mul, !X_q_rotate by auto using rq_mul_quat.
  rewrite X_q_rotate by auto using rq_act_length. now rewrite rq_act_mul.
Qed.
Lemma quat_linear : forall q u v k, is_quat q -> length u = 3%nat -> length v = 3%nat ->
  q_rotate (qlift q) (vS (radd u v)) = v_add (q_rotate (qlift q) (vS u)) (q_rotate (qlift q) (vS v))
  /\ q_rotate (qlift q) (vS (rscale k u)) = v_scale (q_rotate (qlift q) (vS u)) (Some k).
Proof.
  intros q u v k Hq Hu Hv.
  rewrite !X_q_rotate by (auto; rewrite ?radd_length, ?rscale_length by congruence; auto).
  rewrite X_add, X_scale. destruct (rq_act_linear q u v k Hq Hu Hv) as [-> ->]. auto.
Qed.
Lemma quat_undo : forall q v, is_quat q -> rq_norm2 q = 1 -> length v = 3%nat ->
  q_rotate (q_conjugate (qlift q)) (q_rotate (qlift q) (vS v)) = vS v.
Proof.
  intros q v Hq Hn Hv. rewrite X_q_conj, !X_q_rotate by auto using rq_act_length, rq_conj_quat.
  f_equal. rewrite <- rq_act_mul by auto using rq_conj_quat.
  rewrite (proj2 (rq_mul_conj q Hq)), Hn. vec3 v. unfold rq_act, rzero. cbn [repeat]. qring.
Qed.

(** ** axis and angle *)
Lemma rdot_rnorm1 : forall u, rnorm u = 1 <-> rdot u u = 1.
Proof.
  intros u. unfold rnorm. split; intros H.
  - rewrite <- (sqrt_sqrt (rdot u u)) by apply rdot_nonneg. rewrite H. ring.
  - rewrite H. apply sqrt_1.
Qed.
Lemma X_is_unit : forall u, rdot u u = 1 -> v_is_unit (vS u) almost_zero = true.
Proof.
  intros u H. unfold v_is_unit. rewrite X_length. rewrite (proj2 (rdot_rnorm1 u) H).
  unfold almost_zero. rewrite X_lit by lia. change (cst 1) with (Some 1). rewrite X_is_equal. apply Rle_true.
  rewrite Rminus_diag_eq, Rabs_R0 by auto. lra.
Qed.
Lemma X_half : forall a, o_div (Some a) (cst 2) = Some (a / 2).
Proof. intros. change (cst 2) with (Some 2). rewrite X_div by lra. reflexivity. Qed.
Lemma X_q_axis_angle : forall u th, rdot u u = 1 ->
  q_axis_angle (vS u) (Some th) = Ret (qlift (Q (cos (th / 2)) (rscale (sin (th / 2)) u))).
Proof.
  intros u th H. unfold q_axis_angle. rewrite X_is_unit by auto. unfold require. rewrite X_half.
  unfold qlift. cbn [q_r q_v f_cos f_sin XRlibm X1]. now rewrite X_scale.
Qed.
Lemma half_angle : forall th, cos th = cos (th / 2) * cos (th / 2) - sin (th / 2) * sin (th / 2)
  /\ sin th = 2 * sin (th / 2) * cos (th / 2) /\ sin (th / 2) * sin (th / 2) + cos (th / 2) * cos (th / 2) = 1.
Proof.
  intros th. repeat split.
  - rewrite <- cos_plus. f_equal. field.
  - rewrite <- sin_2a. f_equal. field.
  - apply sin2_cos2.
Qed.
Lemma axis_angle_act : forall u th v, length u = 3%nat -> length v = 3%nat -> rdot u u = 1 ->
  rq_act (Q (cos (th / 2)) (rscale (sin (th / 2)) u)) v = rrot u th v.
Proof.
  intros u th v Hu Hv H. destruct (half_angle th) as (Ec & Es & E1). unfold rrot. rewrite Ec, Es.
  set (s := sin (th / 2)) in *. set (c := cos (th / 2)) in *.
  unfold rq_act. cbn [q_r q_v]. rewrite !rdot_scale_l, rdot_scale_r, H.
  replace (1 - (c * c - s * s)) with (2 * (s * s)) by lra.
  vec3 u. vec3 v. qring.
Qed.
Lemma axis_angle_rotation : forall u th v, length u = 3%nat -> length v = 3%nat -> rdot u u = 1 ->
  exists q, q_axis_angle (vS u) (Some th) = Ret (qlift q) /\ is_quat q /\ rq_norm2 q = 1
    /\ q_rotate (qlift q) (vS v) = vS (rrot u th v).
Proof.
  intros u th v Hu Hv H. exists (Q (cos (th / 2)) (rscale (sin (th / 2)) u)).
  assert (Hq : is_quat (Q (cos (th / 2)) (rscale (sin (th / 2)) u))).
  { unfold is_quat. cbn [q_v]. now rewrite rscale_length. }
  split; [now apply X_q_axis_angle|]. split; [auto|]. split.
  - unfold rq_norm2. cbn [q_r q_v]. rewrite rdot_scale_l, rdot_scale_r, H.
    destruct (half_angle th) as (_ & _ & E). lra.
  - rewrite X_q_rotate by auto. f_equal. now apply axis_angle_act.
Qed.
Lemma axis_angle_not_unit : forall u th, Rabs (rnorm u - 1) > 1 / 1000 ->
  q_axis_angle (vS u) (Some th) = Assert.
Proof.
  intros u th H. unfold q_axis_angle, v_is_unit. rewrite X_length. unfold almost_zero. rewrite X_lit by lia.
  change (cst 1) with (Some 1). rewrite X_is_equal. now rewrite (proj2 (Rle_false _ _)).
Qed.
Lemma acos_some : forall a, -1 <= a <= 1 -> f_acos (Some a) = Some (acos a).
Proof.
  intros a H. cbn [f_acos XRlibm Xunit]. rewrite Rlt_bool_false; auto. apply Rabs_le. lra.
Qed.
Lemma quat_angle : forall u th, rdot u u = 1 -> 0 <= th <= 2 * PI ->
  exists q, q_axis_angle (vS u) (Some th) = Ret (qlift q) /\ q_angle (qlift q) = Some th.
Proof.
  intros u th H Ht. eexists. split; [now apply X_q_axis_angle|]. unfold q_angle, qlift. cbn [q_r].
  rewrite acos_some by apply COS_bound. rewrite acos_cos by lra. cbn [o_mul XRops X2 cst o_of_Z]. f_equal. field.
Qed.
Lemma X_v_is_zero : forall a e, 0 <= e -> (v_is_zero (vS a) (Some e) = true <-> Forall (fun x => Rabs x <= e) a).
Proof.
  intros a e He. unfold v_is_zero. rewrite forallb_forall, Forall_forall. split.
  - intros H x Hx. specialize (H (Some x) (in_map Some a x Hx)). rewrite X_is_zero in H by auto. now apply Rle_true.
  - intros H x Hx. apply in_map_iff in Hx. destruct Hx as (y & <- & Hy). rewrite X_is_zero by auto.
    apply Rle_true. auto.
Qed.
Lemma quat_axis : forall u th, rdot u u = 1 -> 0 <= th <= 2 * PI ->
  exists q, q_axis_angle (vS u) (Some th) = Ret (qlift q) /\
    ((exists x, In x u /\ Rabs (sin (th / 2) * x) > 1 / 1000) -> q_axis (qlift q) = vS u).
Proof.
  intros u th H Ht. eexists. split; [now apply X_q_axis_angle|]. intros (x & Hx & Hb).
  unfold q_axis, qlift. cbn [q_r q_v]. unfold almost_zero. rewrite X_lit by lia.
  destruct (v_is_zero _ _) eqn:E.
  { exfalso. apply X_v_is_zero in E; [|lra]. unfold rscale in E. rewrite Forall_map, Forall_forall in E.
    specialize (E x Hx). lra. }
  rewrite acos_some by apply COS_bound. rewrite acos_cos by lra. cbn [f_sin XRlibm X1].
  rewrite X_div_s.
  - rewrite rscale_mul. rewrite Rinv_l; [now rewrite rscale_1|]. intros Z. rewrite Z, Rmult_0_l, Rabs_R0 in Hb. lra.
  - intros Z. rewrite Z, Rmult_0_l, Rabs_R0 in Hb. lra.
Qed.

(** ** C38 *)
Lemma quat_ne : forall T (o : ops T) (p q : quat T), q_ne p q = negb (q_eq p q).
Proof.
  intros. unfold q_ne, q_eq, v_ne, v_eq. now rewrite negb_andb, negb_orb.
Qed.
Lemma quat_eq_iff : forall p q, is_quat p -> is_quat q ->
  (q_eq (qlift p) (qlift q) = true <-> (q_r p = q_r q \/ q_r p = - q_r q) /\ q_v p = q_v q).
Proof.
  intros p q Hp Hq. unfold q_eq, qlift. cbn [q_r q_v]. rewrite andb_true_iff, orb_true_iff.
  rewrite X_v_eq by (unfold is_quat in *; congruence). cbn [o_eq o_neg XRops X1 Xcmp]. now rewrite !Req_true.
Qed.
Lemma quat_eq_partial : forall p q v, is_quat p -> is_quat q -> length v = 3%nat ->
  q_rotate (qlift (rq_opp q)) (vS v) = q_rotate (qlift q) (vS v)
  /\ (q_eq (qlift p) (qlift q) = true -> q_r p * q_r q >= 0 -> q_rotate (qlift p) (vS v) = q_rotate (qlift q) (vS v))
  /\ q_rotate (q_neg (qlift q)) (vS v) = q_rotate (q_conjugate (qlift q)) (vS v).
Proof.
  intros p q v Hp Hq Hv. split; [|split].
  - rewrite !X_q_rotate; auto. + f_equal. now apply rq_act_opp. + unfold is_quat in *. cbn. now rewrite rneg_length.
  - intros E Hs. apply quat_eq_iff in E; auto. destruct E as [[E|E] Ev].
    + f_equal. f_equal. destruct p, q. cbn in *. congruence.
    + assert (q_r p = q_r q) by nra. f_equal. f_equal. destruct p, q. cbn in *. congruence.
  - rewrite X_q_conj. change (q_neg (qlift q)) with (qlift (Q (- q_r q) (q_v q))).
    rewrite !X_q_rotate by (auto using rq_conj_quat). f_equal. quat3 q. vec3 v. unfold rq_act. qring.
Qed.
Lemma quat_eq_refuted : exists p q v, is_quat p /\ is_quat q /\ rq_norm2 p = 1 /\ rq_norm2 q = 1
  /\ q_eq (qlift p) (qlift q) = true /\ q_rotate (qlift p) (vS v) <> q_rotate (qlift q) (vS v)
  /\ q_eq (qlift p) (qlift (rq_opp p)) = false
  /\ q_neg (qlift p) <> qlift (rq_opp p) /\ q_scale (qlift p) (Some 2) <> qlift (rq_scale 2 p).
Proof.
  exists (Q (3/5) [0; 0; 4/5]), (Q (-(3/5)) [0; 0; 4/5]), [1; 0; 0].
  repeat split; try reflexivity.
  - unfold rq_norm2. simpl. field.
  - unfold rq_norm2. simpl. field.
  - apply quat_eq_iff; try reflexivity. cbn [q_r q_v]. split; auto. right. field.
  - rewrite !X_q_rotate by reflexivity. intros E. apply map_Some_inj in E. unfold rq_act in E. simpl in E.
    injection E. intros. lra.
  - apply not_true_is_false. rewrite quat_eq_iff by reflexivity. cbn [q_r q_v rq_opp rneg map].
    intros [_ E]. injection E. intros. lra.
  - intros E. injection E. intros. lra.
  - intros E. injection E. intros. lra.
Qed.

(** ** C39 *)
Lemma rrot_pi : forall u f, length u = 3%nat -> length f = 3%nat -> rdot u f = 0 -> rrot u PI f = rneg f.
Proof.
  intros u f Hu Hf H. unfold rrot. rewrite cos_PI, sin_PI, H. vec3 u. vec3 f. qring.
Qed.
Lemma unit_normalize : forall a, length a = 3%nat -> rdot a a <> 0 ->
  exists u, v_normalize (vS a) = vS u /\ u = rscale (/ rnorm a) a /\ length u = 3%nat /\ rdot u u = 1 /\ rnorm a <> 0.
Proof.
  intros a Ha H. assert (N : rnorm a <> 0).
  { intros E. apply H. rewrite <- rnorm_sq, E. ring. }
  exists (rscale (/ rnorm a) a). split; [now apply X_normalize_vec|]. split; auto.
  split; [now rewrite rscale_length|]. split; auto.
  rewrite rdot_scale_l, rdot_scale_r, <- rnorm_sq. now field.
Qed.
Lemma dist_sq : forall a b, length a = length b -> rdot a a = 1 -> rdot b b = 1 ->
  rdot (rsub a b) (rsub a b) = 2 - 2 * rdot a b.
Proof.
  intros a b H Ha Hb. rewrite rdot_sub_l, !rdot_sub_r by (rewrite ?rsub_length; auto). rewrite (rdot_comm b a). lra.
Qed.
Lemma quat_from_to : forall f t, length f = 3%nat -> length t = 3%nat -> rdot f f = 1 -> rdot t t = 1 ->
  exists q r, q_from_to (vS f) (vS t) = Ret (qlift q) /\ is_quat q /\ rq_norm2 q = 1
    /\ q_rotate (qlift q) (vS f) = vS r
    /\ (Rabs (rdot f t) < 1 - 1 / 1000 -> r = t) /\ (t = f -> r = t) /\ (t = rneg f -> r = t)
    /\ rdot (rsub r t) (rsub r t) <= 2 / 1000.
Proof.
  intros f t Hf Ht Uf Ut. unfold q_from_to. rewrite !X_is_unit by auto. unfold require.
  rewrite X_dot. set (c := rdot f t).
  assert (Hc : -1 <= c <= 1).
  { pose proof (cauchy_schwarz f t ltac:(congruence)) as K. rewrite Uf, Ut in K. fold c in K. nra. }
  assert (L : length f = length t) by congruence.
  unfold almost_zero. rewrite X_lit by lia. change (cst 1) with (Some 1).
  cbn [o_neg XRops X1]. rewrite !X_is_equal.
  destruct (Rle_bool_spec (Rabs (c - 1)) (1 / 1000)) as [H1|H1].
  - change pos_z3 with (vS [0; 0; 1]). change (cst 0) with (Some 0).
    destruct (axis_angle_rotation [0; 0; 1] 0 f eq_refl Hf ltac:(simpl; ring)) as (q & E & Hq & Hn & Er).
    exists q, f. rewrite E, Er. split; auto. split; auto. split; auto. split.
    { f_equal. unfold rrot. rewrite cos_0, sin_0. vec3 f. qring. }
    rewrite Rabs_left1 in H1 by lra. split; [|split; [|split]].
    + intros K. apply Rabs_def2 in K. lra.
    + auto.
    + intros E'. exfalso. subst t. unfold c in *. rewrite rdot_comm, rdot_neg_l in H1. lra.
    + rewrite dist_sq by auto. fold c. lra.
  - rewrite Rabs_left1 in H1 by lra.
    destruct (Rle_bool_spec (Rabs (- c - 1)) (1 / 1000)) as [H2|H2].
    + rewrite Rabs_left1 in H2 by lra.
      assert (A : exists a, (if sc_is_zero (v_squared_length (v_cross (vS f) pos_z3)) (Some (1 / 1000))
                  then v_cross (vS f) pos_x3 else v_cross (vS f) pos_z3) = vS a /\ length a = 3%nat
                  /\ rdot a f = 0 /\ rdot a a <> 0).
      { change pos_z3 with (vS [0; 0; 1]). change pos_x3 with (vS [1; 0; 0]).
        rewrite !X_cross3, X_squared_length, X_is_zero by (auto; lra).
        vec3 f. simpl in Uf. destruct (Rle_bool_spec (Rabs (rdot (rcross [f0; f1; f2] [0; 0; 1]) (rcross [f0; f1; f2] [0; 0; 1]))) (1 / 1000)) as [H3|H3].
        - exists (rcross [f0; f1; f2] [1; 0; 0]). split; auto. split; auto. simpl. split; [ring|]. simpl in H3.
          rewrite Rabs_pos_eq in H3 by nra. nra.
        - exists (rcross [f0; f1; f2] [0; 0; 1]). split; auto. split; auto. split; [simpl; ring|].
          intros Z. rewrite Z, Rabs_R0 in H3. lra. }
      destruct A as (a & -> & La & Of & Na).
      destruct (unit_normalize a La Na) as (u & -> & Eu & Lu & Uu & _).
      assert (E180 : to_radians (cst 180) = Some PI).
      { unfold to_radians. change (o_mul (cst 180) k_pi) with (Some (180 * PI)). change (cst 180) with (Some 180).
        rewrite X_div by lra. f_equal. field. }
      rewrite E180.
      destruct (axis_angle_rotation u PI f Lu Hf Uu) as (q & E & Hq & Hn & Er).
      exists q, (rneg f). rewrite E, Er. split; auto. split; auto. split; auto. split.
      { f_equal. apply rrot_pi; auto. subst u. rewrite rdot_scale_l, Of. ring. }
      split; [|split; [|split]].
      * intros K. apply Rabs_def2 in K. lra.
      * intros ->. exfalso. unfold c in *. lra.
      * auto.
      * rewrite dist_sq; rewrite ?rneg_length; auto. { rewrite rdot_neg_l. fold c. lra. }
        rewrite rdot_neg_l, rdot_comm, rdot_neg_l. lra.
    + rewrite Rabs_left1 in H2 by lra.
      rewrite acos_some by lra. rewrite X_cross3 by auto.
      destruct (rcross_props f t Hf Ht) as (O1 & O2 & O3 & O4). fold c in O4. rewrite Uf, Ut in O4.
      destruct (unit_normalize (rcross f t) (rcross_length f t Hf Ht) ltac:(nra)) as (u & -> & Eu & Lu & Uu & Nn).
      destruct (axis_angle_rotation u (acos c) f Lu Hf Uu) as (q & E & Hq & Hn & Er).
      exists q, t. rewrite E, Er. split; auto. split; auto. split; auto. split.
      { f_equal. unfold rrot. rewrite cos_acos by lra. rewrite sin_acos by lra.
        assert (En : rnorm (rcross f t) = sqrt (1 - c²)).
        { unfold rnorm. f_equal. unfold Rsqr. lra. }
        rewrite <- En. subst u. set (n := rnorm (rcross f t)) in *.
        assert (E0 : rdot (rscale (/ n) (rcross f t)) f = 0) by (rewrite rdot_scale_l, O1; ring).
        rewrite E0. destruct (rcross_linear (rcross f t) (rcross f t) f (/ n)) as [_ ->]; auto using rcross_length.
        rewrite (rscale_mul n (/ n)). rewrite Rinv_r, rscale_1 by auto.
        assert (D : rcross (rcross f t) f = rsub t (rscale c f)).
        { unfold c. clear - Hf Ht Uf. vec3 f. vec3 t. simpl in *. unfold rsub, rscale. cbn [map zip].
          assert (U : f0 * f0 + f1 * f1 + f2 * f2 = 1) by lra.
          listeq; try reflexivity.
          - transitivity (t0 * (f0 * f0 + f1 * f1 + f2 * f2) - (f0 * t0 + (f1 * t1 + (f2 * t2 + 0))) * f0); [ring | rewrite U; ring].
          - transitivity (t1 * (f0 * f0 + f1 * f1 + f2 * f2) - (f0 * t0 + (f1 * t1 + (f2 * t2 + 0))) * f1); [ring | rewrite U; ring].
          - transitivity (t2 * (f0 * f0 + f1 * f1 + f2 * f2) - (f0 * t0 + (f1 * t1 + (f2 * t2 + 0))) * f2); [ring | rewrite U; ring]. }
        rewrite D. generalize (rscale (/ n) (rcross f t)), Lu. intros w Lw. clearbody c. clear - Hf Ht Lw.
        vec3 f. vec3 t. vec3 w. qring. }
      split; [|split; [|split]]; auto.
      rewrite rsub_self. unfold rzero. rewrite rdot_rzero. lra.
Qed.
Lemma quat_from_to_refuted : exists f t q, length f = 3%nat /\ length t = 3%nat /\ rdot f f = 1 /\ rdot t t = 1
  /\ q_from_to (vS f) (vS t) = Ret q /\ q_rotate q (vS f) <> vS t.
Proof.
  set (f := [1; 0; 0]). set (t := [9999 / 10001; 200 / 10001; 0]).
  assert (Uf : rdot f f = 1) by (simpl; ring). assert (Ut : rdot t t = 1) by (simpl; field).
  exists f, t. unfold q_from_to. rewrite !X_is_unit by auto. unfold require. rewrite X_dot.
  unfold almost_zero. rewrite X_lit by lia. change (cst 1) with (Some 1). rewrite X_is_equal.
  rewrite (proj2 (Rle_true _ _)).
  2: { simpl. apply Rabs_le. lra. }
  change pos_z3 with (vS [0; 0; 1]). change (cst 0) with (Some 0).
  destruct (axis_angle_rotation [0; 0; 1] 0 f eq_refl eq_refl ltac:(simpl; ring)) as (q & E & Hq & Hn & Er).
  exists (qlift q). rewrite E, Er. repeat split; auto.
  intros X. apply map_Some_inj in X. unfold rrot in X. rewrite cos_0, sin_0 in X. simpl in X. injection X. intros. lra.
Qed.
(** A vector that is a unit vector as far as the assertions can tell, rotated onto itself. *)
Lemma quat_from_to_assert : exists f, length f = 3%nat /\ v_is_unit (vS f) almost_zero = true /\
  q_from_to (vS f) (vS f) = Assert.
Proof.
  exists [1001 / 1000; 0; 0]. split; auto.
  assert (N : rnorm [1001 / 1000; 0; 0] = 1001 / 1000).
  { unfold rnorm. simpl. replace (1001 / 1000 * (1001 / 1000) + (0 * 0 + (0 * 0 + 0))) with (Rsqr (1001 / 1000)) by (unfold Rsqr; ring).
    apply sqrt_Rsqr. lra. }
  assert (U : v_is_unit (vS [1001 / 1000; 0; 0]) almost_zero = true).
  { unfold v_is_unit. rewrite X_length, N. unfold almost_zero. rewrite X_lit by lia. change (cst 1) with (Some 1).
    rewrite X_is_equal. apply Rle_true. apply Rabs_le. lra. }
  split; auto. unfold q_from_to. rewrite U. unfold require. rewrite X_dot. unfold almost_zero. rewrite X_lit by lia.
  change (cst 1) with (Some 1). cbn [o_neg XRops X1]. rewrite !X_is_equal.
  rewrite (proj2 (Rle_false _ _)) by (simpl; rewrite Rabs_pos_eq; lra).
  rewrite (proj2 (Rle_false _ _)) by (simpl; rewrite Rabs_left1; lra).
  rewrite X_cross3 by reflexivity.
  replace (rcross [1001 / 1000; 0; 0] [1001 / 1000; 0; 0]) with (rzero 3) by (unfold rzero; simpl; listeq; try reflexivity; ring).
  rewrite X_normalize_zero. reflexivity.
Qed.
