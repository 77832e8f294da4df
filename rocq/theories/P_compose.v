(** Proofs about transforming twice and back (C101). *)
From Coq Require Import ZArith Reals List Bool Lia Lra Psatz.
From Flocq Require Import Core.
From Verif Require Import Ops M_scalar M_vec M_mat M_matext M_bbox M_geom Inst_XR S_order S_vec S_mat S_affine S_bbox S_geom.
From Verif Require Import P_ord P_order_final P_xr P_vec P_vec2 P_mat P_mat2 P_line P_seg P_affine P_plane P_rigid2 P_rigid3.
Import ListNotations.
Local Open Scope R_scope.

Lemma unit_unique : forall n u w j k, unit_vec n u -> unit_vec n w -> 0 < j -> 0 < k -> rscale j u = rscale k w -> u = w.
Proof.
  intros n u w j k [L1 U1] [L2 U2] J K E.
  assert (D : rdot (rscale j u) (rscale j u) = rdot (rscale k w) (rscale k w)) by now rewrite E.
  rewrite !rdot_scale_l, !rdot_scale_r, U1, U2 in D.
  assert (F : (j - k) * (j + k) = 0) by lra. apply Rmult_integral in F. assert (j = k) by (destruct F; lra). subst k.
  assert (X : rscale (/ j) (rscale j u) = rscale (/ j) (rscale j w)) by now rewrite E.
  now rewrite !rscale_mul, Rinv_l, !rscale_1 in X by lra.
Qed.
Lemma rlin_zero : forall n M v, length v = n -> (rlin n M v = rzero n <-> raffine n M v = raffine n M (rzero n)).
Proof.
  intros n M v H. unfold rlin. assert (Q1 := raffine_length n M v). assert (Q2 := raffine_length n M (rzero n)). split; intros E.
  - apply rsub_eq; [ congruence | ]. now rewrite Q1.
  - rewrite E. unfold rzero at 3. vext. rewrite nth_repeat. ring.
Qed.
Lemma rlin_mul : forall n A B v, affine n A -> affine n B -> length v = n -> rlin n (rmul (S n) (S n) (S n) A B) v = rlin n A (rlin n B v).
Proof.
  intros n A B v HA HB Hv. assert (Z : length (rzero n) = n) by apply repeat_length. unfold rlin at 1. rewrite !raffine_mul by assumption.
  rewrite (rg_AD n A) by apply raffine_length. reflexivity.
Qed.

Section Two.
Context (n : nat) (A B : list (list R)) (HA : affine n A) (HB : affine n B).
Let AB := rmul (S n) (S n) (S n) A B.
Lemma keeps_second : forall d, length d = n -> keeps n AB d -> keeps n B d /\ forall k u, 0 < k -> length u = n -> rlin n B d = rscale k u -> keeps n A u.
Proof.
  intros d Hd K. assert (Z : length (rzero n) = n) by apply repeat_length. unfold keeps in *. unfold AB in K. rewrite !raffine_mul in K by assumption. split.
  - intros E. apply K. now rewrite E.
  - intros k u Hk Hu E Q. apply K. apply (rlin_zero n A u Hu) in Q.
    apply rsub_eq; [ now rewrite !raffine_length | ]. rewrite raffine_length. rewrite (rg_AD n A) by apply raffine_length. fold (rlin n B d). rewrite E.
    rewrite <- (rg_LK n A) by assumption. rewrite Q. unfold rzero. vext. rewrite !nth_repeat. ring.
Qed.
Lemma two_normalize : forall d, unit_vec n d -> keeps n AB d -> exists u, v_normalize (vS (rlin n B d)) = vS u /\ unit_vec n u
  /\ v_normalize (vS (rlin n AB d)) = v_normalize (vS (rlin n A u)) /\ exists w k, v_normalize (vS (rlin n A u)) = vS w /\ unit_vec n w /\ 0 < k /\ rlin n A u = rscale k w.
Proof.
  intros d [Hd U] K. destruct (keeps_second d Hd K) as [K1 K2].
  destruct (unit_normalize n (rlin n B d)) as (u & k & E1 & HU & Hk & E2); [ apply rlin_length | now apply keeps_lin | ].
  exists u. split; [ exact E1 | ]. split; [ exact HU | ]. specialize (K2 k u Hk (proj1 HU) E2).
  destruct (unit_normalize n (rlin n A u)) as (w & j & E3 & HW & Hj & E4); [ apply rlin_length | apply keeps_lin; [ apply HU | exact K2 ] | ].
  destruct (unit_normalize n (rlin n AB d)) as (w' & j' & E5 & HW' & Hj' & E6); [ apply rlin_length | now apply keeps_lin | ].
  split; [ | exists w, j; auto ]. rewrite E3, E5. f_equal.
  assert (E : rlin n AB d = rscale (k * j) w).
  { unfold AB. rewrite rlin_mul by assumption. rewrite E2. rewrite <- (rg_LK n A) by apply HU. rewrite E4, rscale_mul. f_equal. }
  rewrite E in E6. symmetry in E6. apply (unit_unique n w' w j' (k * j)); auto. nra.
Qed.
Lemma tw_point : forall p, length p = n -> m_mul_p (S n) (m_mul (S n) (S n) (S n) (mS A) (mS B)) (vS p) = m_mul_p (S n) (mS A) (m_mul_p (S n) (mS B) (vS p)).
Proof. intros p Hp. now apply affine_compose. Qed.
Lemma tw_ray : forall r, is_ray n r -> keeps n AB (ray_dir r) ->
  ray_transform (S n) (ray_lift r) (m_mul (S n) (S n) (S n) (mS A) (mS B)) = ray_transform (S n) (ray_transform (S n) (ray_lift r) (mS B)) (mS A).
Proof.
  intros [p d] [H1 H2] K. cbn [ray_origin ray_dir] in *. destruct (two_normalize d H2 K) as (u & E1 & HU & E2 & _).
  unfold ray_transform, ray_lift. cbn [ray_origin ray_dir]. rewrite affine_compose by assumption. f_equal.
  rewrite X_m_mul. fold AB. rewrite (X_lin n B) by (auto; apply H2). rewrite E1. rewrite !X_lin by (auto; try apply HU; try apply H2; now apply affine_mul). exact E2.
Qed.
Lemma tw_line : forall r, is_line n r -> keeps n AB (ln_dir r) ->
  ln_transform (S n) (line_lift r) (m_mul (S n) (S n) (S n) (mS A) (mS B)) = ln_transform (S n) (ln_transform (S n) (line_lift r) (mS B)) (mS A).
Proof.
  intros [p d] [H1 H2] K. cbn [ln_point ln_dir] in *. destruct (two_normalize d H2 K) as (u & E1 & HU & E2 & _).
  unfold ln_transform, line_lift. cbn [ln_point ln_dir]. rewrite affine_compose by assumption. f_equal.
  rewrite X_m_mul. fold AB. rewrite (X_lin n B) by (auto; apply H2). rewrite E1. rewrite !X_lin by (auto; try apply HU; try apply H2; now apply affine_mul). exact E2.
Qed.
Lemma X_vec_total : forall a b, length a = length b -> v_lt (vS a) (vS b) = true \/ v_lt (vS b) (vS a) = true \/ a = b.
Proof.
  intros a b H. destruct (v_lt (vS a) (vS b)) eqn:E1; [ auto | ]. destruct (v_lt (vS b) (vS a)) eqn:E2; [ auto | ]. right. right.
  revert b H E1 E2. induction a as [|x a IH]; intros [|y b] H E1 E2; try discriminate; [ reflexivity | ]. injection H as H.
  unfold v_lt in E1, E2. cbn [map v_compare o_eq XRops Xcmp] in E1, E2. rewrite !Req_bool_true in E1, E2 by reflexivity. cbn [negb andb] in E1, E2.
  cbn [o_lt o_sub o_add cst o_of_Z XRops Xcmp X2] in E1, E2. rewrite !Rminus_0_r, !Rplus_0_r in E1, E2.
  destruct (Rlt_bool_spec x y); [ discriminate | ]. destruct (Rlt_bool_spec y x); [ discriminate | ].
  f_equal; [ lra | ]. now apply IH.
Qed.
Lemma X_vec_asym : forall a b, length a = length b -> v_lt (vS a) (vS b) = true -> v_lt (vS b) (vS a) = false.
Proof.
  induction a as [|x a IH]; intros [|y b] H E; try discriminate. injection H as H.
  unfold v_lt in *. cbn [map v_compare o_eq XRops Xcmp] in *. rewrite !Req_bool_true in * by reflexivity. cbn [negb andb] in *.
  cbn [o_lt o_sub o_add cst o_of_Z XRops Xcmp X2] in *. rewrite !Rminus_0_r, !Rplus_0_r in *.
  destruct (Rlt_bool_spec x y); destruct (Rlt_bool_spec y x); try lra; try reflexivity; try discriminate. now apply IH.
Qed.
Lemma seg_make_swap : forall a b, length a = length b -> seg_make (vS a) (vS b) = seg_make (vS b) (vS a).
Proof.
  intros a b H. unfold seg_make. destruct (X_vec_total a b H) as [E|[E| ->]]; [ | | reflexivity ].
  - now rewrite E, (X_vec_asym a b).
  - now rewrite E, (X_vec_asym b a).
Qed.
Lemma tw_seg : forall s, is_segment n s ->
  seg_transform (S n) (seg_lift s) (m_mul (S n) (S n) (S n) (mS A) (mS B)) = seg_transform (S n) (seg_transform (S n) (seg_lift s) (mS B)) (mS A).
Proof.
  intros [a b] [H1 H2]. cbn [seg_start seg_end] in *. unfold seg_transform, seg_lift. cbn [seg_start seg_end]. rewrite !affine_compose by assumption.
  rewrite !(X_affine n B) by assumption.
  assert (Q : seg_make (vS (raffine n B a)) (vS (raffine n B b)) = Seg (vS (raffine n B a)) (vS (raffine n B b)) \/
    seg_make (vS (raffine n B a)) (vS (raffine n B b)) = Seg (vS (raffine n B b)) (vS (raffine n B a))) by (unfold seg_make; destruct (v_lt _ _); auto).
  destruct Q as [Q|Q]; rewrite Q; cbn [seg_start seg_end]; [ reflexivity | ].
  rewrite !(X_affine n A) by (auto; apply raffine_length). apply seg_make_swap. now rewrite !raffine_length.
Qed.
End Two.
