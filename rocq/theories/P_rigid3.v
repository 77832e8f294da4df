(** Proofs about rigid motions (C100): planes, triangles, angles. *)
From Coq Require Import ZArith Reals List Bool Lia Lra Psatz.
From Flocq Require Import Core.
From Verif Require Import Ops M_scalar M_vec M_mat M_matext M_geom M_dist M_intersect Inst_XR S_vec S_mat S_affine S_geom S_dist S_intersect S_rigid.
From Verif Require Import P_ord P_xr P_vec P_vec2 P_line P_affine P_plane P_dist P_intersect P_rigid P_rigid2.
Import ListNotations.
Local Open Scope R_scope.

Section Planes.
Context (n : nat) (M : list (list R)) (HM : rigid n M).
Let A := raffine n M.
Let L := rlin n M.
Definition rplane (p : plane R) : plane R := Pl (rdot (raffine n M (rscale (pl_dist p) (pl_normal p))) (rlin n M (pl_normal p))) (rlin n M (pl_normal p)).
Lemma rg_plane : forall p, is_plane n p -> pl_transform (S n) (plane_lift p) (mS M) = plane_lift (rplane p).
Proof.
  intros [d v] [Hl Hu]. cbn [pl_dist pl_normal] in *. unfold pl_transform, pl_anchor, rplane, plane_lift. cbn [pl_dist pl_normal].
  rewrite X_scale, X_affine, X_lin by (try apply (rg_affine n M HM); len). rewrite (rg_normalize n M HM) by (split; assumption).
  unfold pl_make. rewrite X_dot. reflexivity.
Qed.
Lemma rplane_is : forall p, is_plane n p -> is_plane n (rplane p).
Proof. intros p Hp. apply (rg_unit n M HM). exact Hp. Qed.
Lemma rplane_dist : forall p q, is_plane n p -> length q = n ->
  rdot (A q) (pl_normal (rplane p)) - pl_dist (rplane p) = rdot q (pl_normal p) - pl_dist p.
Proof.
  intros [d v] q [Hl Hu] Hq. cbn [pl_dist pl_normal] in *. unfold rplane. cbn [pl_dist pl_normal]. fold A L.
  assert (Q1 := rg_AL n M q). assert (Q2 := rg_AL n M (rscale d v)). assert (Q3 := rg_LL n M v). fold A L in Q1, Q2, Q3.
  rewrite <- rdot_sub_l by len. unfold A, L. rewrite (rg_AD n M), (rg_LD n M HM) by len. dots. rewrite Hu. ring.
Qed.
Lemma rplane_flat : forall p q, is_plane n p -> length q = n -> rdot (A q) (pl_normal (rplane p)) = rdot q (pl_normal p) - pl_dist p + pl_dist (rplane p).
Proof. intros p q Hp Hq. rewrite <- rplane_dist by assumption. ring. Qed.
Lemma rg_plane_point : forall p q eps, is_plane n p -> length q = n ->
  let p' := pl_transform (S n) (plane_lift p) (mS M) in let q' := m_mul_p (S n) (mS M) (vS q) in
  pl_point_distance p' q' = pl_point_distance (plane_lift p) (vS q)
  /\ pl_point_status p' q' eps = pl_point_status (plane_lift p) (vS q) eps
  /\ exists f, pl_project_point (plane_lift p) (vS q) = vS f /\ pl_project_point p' q' = m_mul_p (S n) (mS M) (vS f).
Proof.
  intros p q eps Hp Hq p' q'. unfold p', q'. rewrite rg_plane by assumption. rewrite X_affine by (auto; apply (rg_affine n M HM)). fold A.
  assert (E : pl_point_distance (plane_lift (rplane p)) (vS (A q)) = pl_point_distance (plane_lift p) (vS q)).
  { rewrite !X_pdist. f_equal. now apply rplane_dist. }
  split; [ exact E | ]. split; [ unfold pl_point_status; now rewrite E | ].
  exists (radd (rsub q (rscale (rdot q (pl_normal p)) (pl_normal p))) (rscale (pl_dist p) (pl_normal p))).
  destruct Hp as [Hl Hu]. rewrite X_pproj. split; [ reflexivity | ].
  rewrite X_pproj. rewrite X_affine by (try apply (rg_affine n M HM); len). f_equal.
  rewrite <- (rg_AA n M) by len. rewrite <- (rg_AS n M) by len. rewrite <- !(rg_LK n M) by assumption. fold A L.
  rewrite rplane_flat by (try split; assumption). unfold rplane at 2 4. cbn [pl_normal]. fold L.
  assert (Q1 := rg_AL n M q). assert (Q3 := rg_LL n M (pl_normal p)). fold A L in Q1, Q3. vext. ring.
Qed.
Lemma rg_ray_plane : forall r p, is_ray n r -> is_plane n p ->
  intersect_ray_plane (ray_transform (S n) (ray_lift r) (mS M)) (pl_transform (S n) (plane_lift p) (mS M)) = intersect_ray_plane (ray_lift r) (plane_lift p).
Proof.
  intros r p HR Hp. rewrite rg_plane by assumption. rewrite (rg_ray n M HM) by assumption.
  unfold intersect_ray_plane, gray, ray_lift, pl_anchor. cbn [ray_origin ray_dir]. rewrite !gl_S.
  destruct HR as [R1 [R2 R3]]. assert (Hp' := rplane_is p Hp). assert (F := rplane_flat p (ray_origin r) Hp R1).
  change (pl_normal (plane_lift ?x)) with (vS (pl_normal x)). change (pl_dist (plane_lift ?x)) with (Some (pl_dist x)).
  rewrite !X_dot, !X_scale, !X_sub, !X_dot.
  replace (rdot (rlin n M (ray_dir r)) (pl_normal (rplane p))) with (rdot (ray_dir r) (pl_normal p)).
  2: { unfold rplane. cbn [pl_normal]. symmetry. apply (rg_LD n M HM); [ assumption | apply Hp ]. }
  replace (rdot (rsub (rscale (pl_dist (rplane p)) (pl_normal (rplane p))) (raffine n M (ray_origin r))) (pl_normal (rplane p)))
    with (rdot (rsub (rscale (pl_dist p) (pl_normal p)) (ray_origin r)) (pl_normal p)); [ reflexivity | ].
  destruct Hp as [P1 P2], Hp' as [P1' P2']. assert (Q1 := rg_AL n M (ray_origin r)). unfold A in F. dots. rewrite F, P2, P2'. ring.
Qed.
Lemma rg_line_plane : forall l p, is_line n l -> is_plane n p ->
  intersect_line_plane (ln_transform (S n) (line_lift l) (mS M)) (pl_transform (S n) (plane_lift p) (mS M)) = intersect_line_plane (line_lift l) (plane_lift p).
Proof.
  intros r p HR Hp. rewrite rg_plane by assumption. rewrite (rg_line n M HM) by assumption.
  unfold intersect_line_plane, gline, line_lift. cbn [ln_point ln_dir]. rewrite !gl_S.
  destruct HR as [R1 [R2 R3]]. assert (Hp' := rplane_is p Hp). assert (F := rplane_flat p (ln_point r) Hp R1).
  change (pl_normal (plane_lift ?x)) with (vS (pl_normal x)). change (pl_dist (plane_lift ?x)) with (Some (pl_dist x)).
  rewrite !X_dot, !X_scale_l, !X_sub, !X_dot.
  replace (rdot (rlin n M (ln_dir r)) (pl_normal (rplane p))) with (rdot (ln_dir r) (pl_normal p)).
  2: { unfold rplane. cbn [pl_normal]. symmetry. apply (rg_LD n M HM); [ assumption | apply Hp ]. }
  replace (rdot (rsub (rscale (pl_dist (rplane p)) (pl_normal (rplane p))) (raffine n M (ln_point r))) (pl_normal (rplane p)))
    with (rdot (rsub (rscale (pl_dist p) (pl_normal p)) (ln_point r)) (pl_normal p)); [ reflexivity | ].
  destruct Hp as [P1 P2], Hp' as [P1' P2']. assert (Q1 := rg_AL n M (ln_point r)). unfold A in F. dots. rewrite F, P2, P2'. ring.
Qed.
Lemma rg_average : forall l, l <> [] -> Forall (fun v => length v = n) l ->
  exists c, v_average (map vS l) = Ret (vS c) /\ v_average (map (fun p => m_mul_p (S n) (mS M) (vS p)) l) = Ret (m_mul_p (S n) (mS M) (vS c)).
Proof.
  intros l Hn Hl. exists (rscale (/ INR (length l)) (rsum n l)). split; [ now apply X_average | ].
  assert (E : map (fun p => m_mul_p (S n) (mS M) (vS p)) l = map vS (map A l)).
  { rewrite map_map. apply map_ext_in. intros p Hp. rewrite Forall_forall in Hl. apply X_affine; auto. apply (rg_affine n M HM). }
  assert (LS : forall l, length (rsum n l) = n \/ ~ Forall (fun v => length v = n) l).
  { clear. induction l as [|v l IH]; [ left; apply repeat_length | ]. destruct IH as [IH|IH]; [ | right; intros F; inversion F; auto ].
    destruct (Nat.eq_dec (length v) n) as [D|D]; [ left; cbn [rsum]; rewrite radd_length by congruence; exact D | right; intros F; inversion F; auto ]. }
  assert (LR : length (rsum n l) = n) by (destruct (LS l); tauto).
  rewrite E, (X_average n).
  2: { destruct l; [ congruence | discriminate ]. }
  2: { apply Forall_map. apply Forall_forall. intros p _. apply (rg_AL n M). }
  rewrite X_affine by (try apply (rg_affine n M HM); len). f_equal. f_equal. rewrite map_length.
  assert (P0 : 0 < INR (length l)) by (apply lt_0_INR; destruct l; [ congruence | cbn [length]; lia ]).
  assert (Z : length (rzero n) = n) by apply repeat_length. assert (QZ := rg_AL n M (rzero n)). 
  assert (S : rsum n (map A l) = radd (rscale (INR (length l)) (A (rzero n))) (L (rsum n l))).
  { assert (NZ : forall i, nth i (rzero n) 0 = 0) by (intros; unfold rzero; apply nth_repeat). clear -HM Hl LS Z QZ NZ. induction Hl as [|p l Hp Hl IH].
    - cbn [map rsum length INR]. unfold L, rlin. fold A. unfold A in *. vext. rewrite NZ. ring.
    - cbn [map rsum]. rewrite IH. change (length (p :: l)) with (S (length l)). rewrite S_INR.
      assert (LR : length (rsum n l) = n) by (destruct (LS l); tauto).
      unfold L. rewrite <- (rg_LA n M) by assumption.
      assert (E : A p = radd (A (rzero n)) (rlin n M p)).
      { unfold A. rewrite (rg_AA n M) by assumption. f_equal. unfold rzero. vext. rewrite nth_repeat. ring. }
      rewrite E. assert (Q1 := rg_LL n M p). assert (Q2 := rg_LL n M (rsum n l)). unfold A in *. vext. ring. }
  rewrite S. 
  assert (E2 : A (rscale (/ INR (length l)) (rsum n l)) = radd (A (rzero n)) (L (rscale (/ INR (length l)) (rsum n l)))).
  { unfold A, L. rewrite (rg_AA n M) by len. f_equal. unfold rzero. vext. rewrite nth_repeat. ring. }
  fold A. rewrite E2. unfold L. rewrite <- (rg_LK n M) by assumption. assert (Q2 := rg_LL n M (rsum n l)). unfold A in *. vext. field. lra.
Qed.
End Planes.

(** In space: products. *)
Section Space.
Context (M : list (list R)) (HM : rigid 3 M).
Let A := raffine 3 M.
Let L := rlin 3 M.
Definition handed : R := rdot (rcross (moved 3 M [1; 0; 0]) (moved 3 M [0; 1; 0])) (moved 3 M [0; 0; 1]).
Lemma L_comb : forall a b c, L [a; b; c] = radd (rscale a (L [1; 0; 0])) (radd (rscale b (L [0; 1; 0])) (rscale c (L [0; 0; 1]))).
Proof.
  intros a b c. unfold L. rewrite !(rg_LK 3 M), !(rg_LA 3 M) by reflexivity. f_equal. unfold rscale, radd. cbn [map zip].
  repeat (apply f_equal2; [ ring | ]). reflexivity.
Qed.
Lemma L_cross : (handed = 1 \/ handed = -1) /\ forall v w, length v = 3%nat -> length w = 3%nat -> rcross (L v) (L w) = rscale handed (L (rcross v w)).
Proof.
  assert (D11 := rg_LD 3 M HM [1; 0; 0] [1; 0; 0] eq_refl eq_refl). assert (D12 := rg_LD 3 M HM [1; 0; 0] [0; 1; 0] eq_refl eq_refl).
  assert (D13 := rg_LD 3 M HM [1; 0; 0] [0; 0; 1] eq_refl eq_refl). assert (D22 := rg_LD 3 M HM [0; 1; 0] [0; 1; 0] eq_refl eq_refl).
  assert (D23 := rg_LD 3 M HM [0; 1; 0] [0; 0; 1] eq_refl eq_refl). assert (D33 := rg_LD 3 M HM [0; 0; 1] [0; 0; 1] eq_refl eq_refl).
  unfold handed. change (moved 3 M) with L. fold L in D11, D12, D13, D22, D23, D33.
  assert (LC := L_comb).
  assert (L1 := rg_LL 3 M [1; 0; 0]). assert (L2 := rg_LL 3 M [0; 1; 0]). assert (L3 := rg_LL 3 M [0; 0; 1]). fold L in L1, L2, L3.
  remember (L [1; 0; 0]) as a. remember (L [0; 1; 0]) as b. remember (L [0; 0; 1]) as c. clear Heqa Heqb Heqc. clearbody L.
  vec3 a. vec3 b. vec3 c. cbn [rdot rcross] in *.
  assert (E11 : a0 * a0 + a1 * a1 + a2 * a2 = 1) by lra. assert (E22 : b0 * b0 + b1 * b1 + b2 * b2 = 1) by lra.
  assert (E33 : c0 * c0 + c1 * c1 + c2 * c2 = 1) by lra. assert (E12 : a0 * b0 + a1 * b1 + a2 * b2 = 0) by lra.
  assert (E13 : a0 * c0 + a1 * c1 + a2 * c2 = 0) by lra. assert (E23 : b0 * c0 + b1 * c1 + b2 * c2 = 0) by lra.
  clear D11 D12 D13 D22 D23 D33.
  set (d := (a1 * b2 - a2 * b1) * c0 + ((a2 * b0 - a0 * b2) * c1 + ((a0 * b1 - a1 * b0) * c2 + 0))).
  assert (DD : d * d = 1).
  { replace (d * d) with ((a0 * a0 + a1 * a1 + a2 * a2) * ((b0 * b0 + b1 * b1 + b2 * b2) * (c0 * c0 + c1 * c1 + c2 * c2) - (b0 * c0 + b1 * c1 + b2 * c2) * (b0 * c0 + b1 * c1 + b2 * c2))
      - (a0 * b0 + a1 * b1 + a2 * b2) * ((a0 * b0 + a1 * b1 + a2 * b2) * (c0 * c0 + c1 * c1 + c2 * c2) - (b0 * c0 + b1 * c1 + b2 * c2) * (a0 * c0 + a1 * c1 + a2 * c2))
      + (a0 * c0 + a1 * c1 + a2 * c2) * ((a0 * b0 + a1 * b1 + a2 * b2) * (b0 * c0 + b1 * c1 + b2 * c2) - (b0 * b0 + b1 * b1 + b2 * b2) * (a0 * c0 + a1 * c1 + a2 * c2))) by (unfold d; ring).
    rewrite E11, E22, E33, E12, E13, E23. ring. }
  (* the products of the images of the axes: expand d times an image *)
  assert (G1 : forall (k : R), True) by auto. clear G1.
  assert (C12 : a1 * b2 - a2 * b1 = d * c0 /\ a2 * b0 - a0 * b2 = d * c1 /\ a0 * b1 - a1 * b0 = d * c2).
  { repeat split.
    - replace (d * c0) with ((a1 * b2 - a2 * b1) * (c0 * c0 + c1 * c1 + c2 * c2) + (b1 * c2 - b2 * c1) * - (a0 * c0 + a1 * c1 + a2 * c2) * 0
        + ((a2 * b0 - a0 * b2) * c1 * c0 + (a0 * b1 - a1 * b0) * c2 * c0 - (a1 * b2 - a2 * b1) * (c1 * c1 + c2 * c2))) by (unfold d; ring).
      rewrite E33. 
      replace ((a2 * b0 - a0 * b2) * c1 * c0 + (a0 * b1 - a1 * b0) * c2 * c0 - (a1 * b2 - a2 * b1) * (c1 * c1 + c2 * c2))
        with ((a0 * c0 + a1 * c1 + a2 * c2) * (b1 * c2 - b2 * c1) + (b0 * c0 + b1 * c1 + b2 * c2) * (a2 * c1 - a1 * c2)) by ring.
      rewrite E13, E23. ring.
    - replace (d * c1) with ((a2 * b0 - a0 * b2) * (c0 * c0 + c1 * c1 + c2 * c2)
        + ((a0 * c0 + a1 * c1 + a2 * c2) * (b2 * c0 - b0 * c2) + (b0 * c0 + b1 * c1 + b2 * c2) * (a0 * c2 - a2 * c0))) by (unfold d; ring).
      rewrite E33, E13, E23. ring.
    - replace (d * c2) with ((a0 * b1 - a1 * b0) * (c0 * c0 + c1 * c1 + c2 * c2)
        + ((a0 * c0 + a1 * c1 + a2 * c2) * (b0 * c1 - b1 * c0) + (b0 * c0 + b1 * c1 + b2 * c2) * (a1 * c0 - a0 * c1))) by (unfold d; ring).
      rewrite E33, E13, E23. ring. }
  assert (C23 : b1 * c2 - b2 * c1 = d * a0 /\ b2 * c0 - b0 * c2 = d * a1 /\ b0 * c1 - b1 * c0 = d * a2).
  { repeat split.
    - replace (d * a0) with ((b1 * c2 - b2 * c1) * (a0 * a0 + a1 * a1 + a2 * a2)
        + ((a0 * b0 + a1 * b1 + a2 * b2) * (c1 * a2 - c2 * a1) + (a0 * c0 + a1 * c1 + a2 * c2) * (b2 * a1 - b1 * a2))) by (unfold d; ring).
      rewrite E11, E12, E13. ring.
    - replace (d * a1) with ((b2 * c0 - b0 * c2) * (a0 * a0 + a1 * a1 + a2 * a2)
        + ((a0 * b0 + a1 * b1 + a2 * b2) * (c2 * a0 - c0 * a2) + (a0 * c0 + a1 * c1 + a2 * c2) * (b0 * a2 - b2 * a0))) by (unfold d; ring).
      rewrite E11, E12, E13. ring.
    - replace (d * a2) with ((b0 * c1 - b1 * c0) * (a0 * a0 + a1 * a1 + a2 * a2)
        + ((a0 * b0 + a1 * b1 + a2 * b2) * (c0 * a1 - c1 * a0) + (a0 * c0 + a1 * c1 + a2 * c2) * (b1 * a0 - b0 * a1))) by (unfold d; ring).
      rewrite E11, E12, E13. ring. }
  assert (C31 : c1 * a2 - c2 * a1 = d * b0 /\ c2 * a0 - c0 * a2 = d * b1 /\ c0 * a1 - c1 * a0 = d * b2).
  { repeat split.
    - replace (d * b0) with ((c1 * a2 - c2 * a1) * (b0 * b0 + b1 * b1 + b2 * b2)
        + ((b0 * c0 + b1 * c1 + b2 * c2) * (a1 * b2 - a2 * b1) + (a0 * b0 + a1 * b1 + a2 * b2) * (c2 * b1 - c1 * b2))) by (unfold d; ring).
      rewrite E22, E12, E23. ring.
    - replace (d * b1) with ((c2 * a0 - c0 * a2) * (b0 * b0 + b1 * b1 + b2 * b2)
        + ((b0 * c0 + b1 * c1 + b2 * c2) * (a2 * b0 - a0 * b2) + (a0 * b0 + a1 * b1 + a2 * b2) * (c0 * b2 - c2 * b0))) by (unfold d; ring).
      rewrite E22, E12, E23. ring.
    - replace (d * b2) with ((c0 * a1 - c1 * a0) * (b0 * b0 + b1 * b1 + b2 * b2)
        + ((b0 * c0 + b1 * c1 + b2 * c2) * (a0 * b1 - a1 * b0) + (a0 * b0 + a1 * b1 + a2 * b2) * (c1 * b0 - c0 * b1))) by (unfold d; ring).
      rewrite E22, E12, E23. ring. }
  destruct C12 as (X1 & X2 & X3), C23 as (Y1 & Y2 & Y3), C31 as (Z1 & Z2 & Z3). clearbody d.
  split. { assert (F : (d - 1) * (d + 1) = 0) by lra. apply Rmult_integral in F. destruct F; [ left | right ]; lra. }
  intros v w Hv Hw. vec3 v. vec3 w. cbn [rcross]. rewrite !LC. unfold rscale, radd. cbn [map zip rcross].
  apply f_equal2; [ | apply f_equal2; [ | apply f_equal2; [ | reflexivity ] ] ].
  - transitivity ((v0 * w1 - v1 * w0) * (a1 * b2 - a2 * b1) + (v1 * w2 - v2 * w1) * (b1 * c2 - b2 * c1) + (v2 * w0 - v0 * w2) * (c1 * a2 - c2 * a1)); [ ring | ].
    rewrite X1, Y1, Z1. ring.
  - transitivity ((v0 * w1 - v1 * w0) * (a2 * b0 - a0 * b2) + (v1 * w2 - v2 * w1) * (b2 * c0 - b0 * c2) + (v2 * w0 - v0 * w2) * (c2 * a0 - c0 * a2)); [ ring | ].
    rewrite X2, Y2, Z2. ring.
  - transitivity ((v0 * w1 - v1 * w0) * (a0 * b1 - a1 * b0) + (v1 * w2 - v2 * w1) * (b0 * c1 - b1 * c0) + (v2 * w0 - v0 * w2) * (c0 * a1 - c1 * a0)); [ ring | ].
    rewrite X3, Y3, Z3. ring.
Qed.
End Space.
