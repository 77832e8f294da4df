(** Proofs about rigid motions (C100): triangles, planes through points, angles, and what is not kept. *)
From Coq Require Import ZArith Reals List Bool Lia Lra Psatz.
From Flocq Require Import Core.
From Verif Require Import Ops M_scalar M_vec M_mat M_matext M_geom M_dist M_intersect Inst_XR S_vec S_mat S_affine S_geom S_dist S_intersect S_rigid.
From Verif Require Import P_ord P_xr P_vec P_vec2 P_line P_affine P_plane P_dist P_intersect P_rigid P_rigid2 P_rigid3.
Import ListNotations.
Local Open Scope R_scope.

Lemma signed_div : forall h a b, h = 1 \/ h = -1 -> o_div (Some (h * a)) (Some (h * b)) = (o_div (Some a) (Some b) : XR).
Proof.
  intros h a b H. cbn [o_div XRops Xdiv]. destruct (Req_bool_spec b 0) as [E|E].
  - rewrite E, Rmult_0_r, Req_bool_true by reflexivity. reflexivity.
  - rewrite Req_bool_false by (destruct H; subst h; lra). f_equal. field. destruct H; subst h; lra.
Qed.
Lemma signed_zero : forall h a, h = 1 \/ h = -1 -> sc_is_zero (Some (h * a)) almost_zero = sc_is_zero (Some a : XR) almost_zero.
Proof. intros h a H. rewrite !X_zero_test. f_equal. destruct H; subst h; [ f_equal; ring | ]. rewrite <- (Rabs_Ropp a). f_equal. ring. Qed.

Section Space.
Context (M : list (list R)) (HM : rigid 3 M).
Let A := raffine 3 M.
Let L := rlin 3 M.

Lemma rg_ray_triangle : forall r p1 p2 p3, is_ray 3 r -> length p1 = 3%nat -> length p2 = 3%nat -> length p3 = 3%nat ->
  intersect_ray_triangle (ray_transform 4 (ray_lift r) (mS M)) (m_mul_p 4 (mS M) (vS p1)) (m_mul_p 4 (mS M) (vS p2)) (m_mul_p 4 (mS M) (vS p3))
  = intersect_ray_triangle (ray_lift r) (vS p1) (vS p2) (vS p3).
Proof.
  intros r p1 p2 p3 HR H1 H2 H3. destruct (L_cross M HM) as [SG CR]. set (h := handed M) in *. clearbody h.
  rewrite (rg_ray 3 M HM) by assumption. rewrite !X_affine by (auto; apply (rg_affine 3 M HM)). fold A L.
  unfold intersect_ray_triangle, gray, ray_lift. cbn [ray_origin ray_dir]. rewrite !gl_S.
  destruct HR as [R1 [R2 R3]]. destruct r as [org d]. cbn [ray_origin ray_dir] in *.
  rewrite !X_sub. unfold A, L. rewrite !(rg_AD 3 M) by assumption.
  assert (LL := rg_LL 3 M). cbv zeta.
  rewrite !X_cross3 by (try apply LL; len). rewrite !CR by len.
  assert (C3 : forall a b, length a = 3%nat -> length b = 3%nat -> length (rcross a b) = 3%nat) by (intros a b Ha Hb; vec3 a; vec3 b; reflexivity).
  rewrite !X_dot, !rdot_scale_l. rewrite !(rg_LD 3 M HM) by (try apply C3; len).
  rewrite signed_zero by assumption. rewrite !signed_div by assumption. reflexivity.
Qed.
Lemma rg_measure_angle : forall v axis up, length v = 3%nat -> length axis = 3%nat -> length up = 3%nat -> keeps_orientation M ->
  let T x := m_mul_p 4 (strip_translation 4 (mS M)) (vS x) in
  measure_angle (T v) (T axis) (T up) = measure_angle (vS v) (vS axis) (vS up).
Proof.
  intros v axis up H1 H2 H3 K T. unfold T. destruct (L_cross M HM) as [SG CR]. change (0 < handed M) in K.
  assert (HH : handed M = 1) by (destruct SG; lra). rewrite HH in CR.
  rewrite !X_lin by (auto; apply (rg_affine 3 M HM)).
  assert (C3 : forall a b, length a = 3%nat -> length b = 3%nat -> length (rcross a b) = 3%nat) by (intros a b Ha Hb; vec3 a; vec3 b; reflexivity).
  assert (LL := rg_LL 3 M). unfold measure_angle. rewrite !X_cross3 by (try apply LL; assumption). rewrite CR by assumption.
  rewrite rscale_1, !X_dot. rewrite !(rg_LD 3 M HM) by auto. reflexivity.
Qed.
Lemma rg_from_points : forall p1 p2 p3, length p1 = 3%nat -> length p2 = 3%nat -> length p3 = 3%nat ->
  let T x := m_mul_p 4 (mS M) (vS x) in
  let x := pl_from_points (vS p1) (vS p2) (vS p3) in let x' := pl_from_points (T p1) (T p2) (T p3) in
  fst x' = fst x
  /\ (fst x = true -> snd x' = if Rlt_dec 0 (handed M) then pl_transform 4 (snd x) (mS M) else pl_flip (pl_transform 4 (snd x) (mS M))).
Proof.
  intros p1 p2 p3 H1 H2 H3 T. unfold T. cbv zeta. destruct (L_cross M HM) as [SG CR]. set (h := handed M) in *.
  assert (AF := rg_affine 3 M HM). rewrite !X_affine by assumption. fold A.
  assert (QA := rg_AL 3 M). assert (QL := rg_LL 3 M).
  assert (CC : cross_of (A p1) (A p2) (A p3) = rscale h (L (cross_of p1 p2 p3))).
  { unfold cross_of. unfold A. rewrite !(rg_AD 3 M) by assumption. apply CR; len. }
  assert (LC : length (cross_of p1 p2 p3) = 3%nat).
  { unfold cross_of. vec3 p1. vec3 p2. vec3 p3. reflexivity. }
  assert (NL : forall v, length v = 3%nat -> rnorm (L v) = rnorm v) by (intros v Hv; unfold rnorm, L; now rewrite (rg_LD 3 M HM)).
  assert (NC : rnorm (cross_of (A p1) (A p2) (A p3)) = rnorm (cross_of p1 p2 p3)).
  { rewrite CC. unfold rnorm. rewrite rdot_scale_l, rdot_scale_r. unfold L. rewrite (rg_LD 3 M HM) by assumption. f_equal. destruct SG as [-> | ->]; ring. }
  assert (NS : rnorm (rsub (A p3) (A p1)) * rnorm (rsub (A p2) (A p1)) = rnorm (rsub p3 p1) * rnorm (rsub p2 p1)).
  { unfold A. rewrite !(rg_AD 3 M) by assumption. fold L. rewrite !NL by len. reflexivity. }
  destruct (from_points_ok p1 p2 p3 H1 H2 H3) as [G B].
  destruct (from_points_ok (A p1) (A p2) (A p3) (QA _) (QA _) (QA _)) as [G' B']. cbv zeta in *. rewrite NC, NS in G', B'.
  assert (DQ : let s := rnorm (rsub p3 p1) * rnorm (rsub p2 p1) in {s <> 0 /\ / 100000000 * s <= rnorm (cross_of p1 p2 p3)} + {s = 0 \/ rnorm (cross_of p1 p2 p3) < / 100000000 * s}).
  { intros s. destruct (Req_EM_T s 0); [ right; tauto | ]. destruct (Rle_dec (/ 100000000 * s) (rnorm (cross_of p1 p2 p3))); [ left; tauto | right; lra ]. }
  cbv zeta in DQ. destruct DQ as [Q|Q].
  - destruct (G Q) as (p & -> & P1 & P2 & _ & _ & k & K & E). destruct (G' Q) as (p' & -> & P1' & P2' & _ & _ & k' & K' & E').
    cbn [fst snd]. split; [ reflexivity | ]. intros _.
    (* the normals *)
    assert (LN := proj1 P1).
    assert (EN : k' = k /\ pl_normal p' = rscale h (L (pl_normal p))).
    { rewrite CC, E in E'. unfold L in E'. rewrite <- (rg_LK 3 M) in E' by assumption. rewrite rscale_mul in E'. fold L in E'.
      assert (D : rdot (rscale (h * k) (L (pl_normal p))) (rscale (h * k) (L (pl_normal p))) = rdot (rscale k' (pl_normal p')) (rscale k' (pl_normal p'))) by now rewrite E'.
      rewrite !rdot_scale_l, !rdot_scale_r in D. unfold L in D. rewrite (rg_LD 3 M HM) in D by assumption. rewrite (proj2 P1), (proj2 P1') in D.
      assert (KK : k' = k). { assert (F : (k' - k) * (k' + k) = 0) by (destruct SG as [S1|S1]; rewrite S1 in D; lra). apply Rmult_integral in F. destruct F; lra. }
      split; [ exact KK | ]. subst k'.
      assert (X : rscale (/ k) (rscale (h * k) (L (pl_normal p))) = rscale (/ k) (rscale k (pl_normal p'))) by now rewrite E'.
      rewrite !rscale_mul in X. rewrite Rinv_l, rscale_1 in X by lra. rewrite <- X. f_equal. field. lra. }
    destruct EN as [_ EN]. rewrite (rg_plane 3 M HM) by assumption.
    assert (PT : rdot (A p1) (pl_normal (rplane 3 M p)) = pl_dist (rplane 3 M p)).
    { unfold A. rewrite (rplane_flat 3 M HM p p1 P1 H1). rewrite (proj2 P2). ring. }
    assert (DP : pl_dist p' = rdot (A p1) (pl_normal p')) by (symmetry; apply (proj2 P2')).
    change (pl_normal (rplane 3 M p)) with (L (pl_normal p)) in PT.
    destruct (Rlt_dec 0 h) as [S1|S1].
    + assert (S2 : h = 1) by (destruct SG; lra). rewrite S2, rscale_1 in EN. destruct p' as [d' n']. cbn [pl_dist pl_normal] in *. subst d' n'. rewrite PT. reflexivity.
    + assert (S2 : h = -1) by (destruct SG; lra). rewrite S2 in EN. destruct p' as [d' n']. cbn [pl_dist pl_normal] in *. subst d' n'.
      rewrite rdot_scale_r, PT. unfold pl_flip, plane_lift. cbn [pl_dist pl_normal]. rewrite X_neg. cbn [o_neg XRops X1]. 
      change (pl_normal (rplane 3 M p)) with (L (pl_normal p)). apply f_equal2; [ f_equal; ring | ]. f_equal. assert (Q3 := QL (pl_normal p)). fold L in Q3. vext. ring.
  - rewrite (B Q), (B' Q). cbn [fst snd]. split; [ reflexivity | discriminate ].
Qed.
Lemma rg_plane_plane : forall p1 p2, is_plane 3 p1 -> is_plane 3 p2 -> / 1000 < plane_sine p1 p2 ->
  exists l l', intersect_plane_plane (plane_lift p1) (plane_lift p2) = line_lift l /\ is_line 3 l
    /\ intersect_plane_plane (pl_transform 4 (plane_lift p1) (mS M)) (pl_transform 4 (plane_lift p2) (mS M)) = line_lift l' /\ is_line 3 l'
    /\ forall q, length q = 3%nat -> (on_line l q <-> on_line l' (A q)).
Proof.
  intros p1 p2 P1 P2 S. destruct (plane_plane_ok p1 p2 P1 P2) as [_ G]. destruct (G S) as (l & E & HL & ON).
  rewrite !(rg_plane 3 M HM) by assumption. assert (P1' := rplane_is 3 M HM p1 P1). assert (P2' := rplane_is 3 M HM p2 P2).
  destruct (plane_plane_ok _ _ P1' P2') as [_ G'].
  assert (SS : plane_sine (rplane 3 M p1) (rplane 3 M p2) = plane_sine p1 p2).
  { unfold plane_sine. unfold rplane. cbn [pl_normal]. destruct (L_cross M HM) as [SG CR]. rewrite CR by (apply P1 || apply P2).
    unfold rnorm. rewrite rdot_scale_l, rdot_scale_r. rewrite (rg_LD 3 M HM).
    - f_equal. destruct SG as [-> | ->]; ring.
    - destruct P1 as [Q1 _], P2 as [Q2 _]. destruct p1 as [? v1], p2 as [? v2]. cbn [pl_normal] in *. vec3 v1. vec3 v2. reflexivity.
    - destruct P1 as [Q1 _], P2 as [Q2 _]. destruct p1 as [? v1], p2 as [? v2]. cbn [pl_normal] in *. vec3 v1. vec3 v2. reflexivity. }
  rewrite <- SS in S. destruct (G' S) as (l' & E' & HL' & ON').
  exists l, l'. split; [ exact E | ]. split; [ exact HL | ]. split; [ exact E' | ]. split; [ exact HL' | ].
  intros q Hq. rewrite ON, ON'. 
  assert (X : forall p, is_plane 3 p -> (on_plane 3 p q <-> on_plane 3 (rplane 3 M p) (A q))).
  { intros p Hp. unfold on_plane. assert (D := rplane_dist 3 M HM p q Hp Hq). assert (Q := rg_AL 3 M q). unfold A in *. split; intros [_ H]; split; auto; lra. }
  rewrite <- !X by assumption. tauto.
Qed.
End Space.
Lemma rg_from_points' : forall M, rigid 3 M -> forall p1 p2 p3, length p1 = 3%nat -> length p2 = 3%nat -> length p3 = 3%nat ->
  let T x := m_mul_p 4 (mS M) (vS x) in
  let x := pl_from_points (vS p1) (vS p2) (vS p3) in let x' := pl_from_points (T p1) (T p2) (T p3) in
  fst x' = fst x
  /\ (fst x = true -> keeps_orientation M -> snd x' = pl_transform 4 (snd x) (mS M))
  /\ (fst x = true -> ~ keeps_orientation M -> snd x' = pl_flip (pl_transform 4 (snd x) (mS M))).
Proof.
  intros M HM p1 p2 p3 H1 H2 H3 T x x'. destruct (rg_from_points M HM p1 p2 p3 H1 H2 H3) as [E1 E2]. split; [ exact E1 | ].
  split; intros V K; specialize (E2 V); change (0 < handed M) in K || change (~ 0 < handed M) in K; destruct (Rlt_dec 0 (handed M)); try contradiction; exact E2.
Qed.
