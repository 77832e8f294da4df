(** Proofs about rigid motions (C100): vectors, lines, rays, segments. *)
From Coq Require Import ZArith Reals List Bool Lia Lra Psatz.
From Flocq Require Import Core.
From Verif Require Import Ops M_scalar M_vec M_mat M_matext M_geom M_dist M_intersect Inst_XR S_vec S_mat S_affine S_geom S_dist S_intersect S_rigid.
From Verif Require Import P_ord P_xr P_vec P_vec2 P_line P_affine P_plane P_dist P_rigid.
Import ListNotations.
Local Open Scope R_scope.

Lemma rdist2_rdist : forall a b, rdist2 a b = rdist a b * rdist a b.
Proof. intros. unfold rdist2, rdist. now rewrite rnorm_sq. Qed.

Section Rigid.
Context (n : nat) (M : list (list R)) (HM : rigid n M).
Let A := raffine n M.
Let L := rlin n M.

Lemma rg_affine : affine n M.
Proof. exact (proj1 HM). Qed.
Lemma rg_AL : forall p, length (A p) = n.
Proof. apply raffine_length. Qed.
Lemma rg_LL : forall v, length (L v) = n.
Proof. apply rlin_length. Qed.
Lemma rg_AA : forall p v, length p = n -> length v = n -> radd (A p) (L v) = A (radd p v).
Proof.
  intros p v H1 H2. assert (E := raffine_point n M p v 1 H1 H2). unfold rpoint in E. rewrite !rscale_1 in E. symmetry. exact E.
Qed.
Lemma rg_AS : forall p v, length p = n -> length v = n -> rsub (A p) (L v) = A (rsub p v).
Proof.
  intros p v H1 H2. assert (E := raffine_point n M p v (-1) H1 H2).
  replace (rpoint p v (-1)) with (rsub p v) in E by (vext; ring). unfold A. rewrite E.
  assert (Q1 := rg_AL p). assert (Q2 := rg_LL v). unfold A, L in *. vext. ring.
Qed.
Lemma rg_AD : forall p q, length p = n -> length q = n -> rsub (A p) (A q) = L (rsub p q).
Proof.
  intros p q H1 H2. assert (E := rg_AA q (rsub p q) H2 ltac:(len)).
  replace (radd q (rsub p q)) with p in E by (vext; ring). rewrite <- E.
  assert (Q1 := rg_AL q). assert (Q2 := rg_LL (rsub p q)). vext. ring.
Qed.
Lemma rg_LA : forall v w, length v = n -> length w = n -> radd (L v) (L w) = L (radd v w).
Proof.
  intros v w H1 H2. assert (Z : length (rzero n) = n) by apply repeat_length.
  unfold L at 1 3. unfold rlin. fold A. rewrite <- (rg_AA v w) by assumption.
  assert (Q1 := rg_AL v). assert (Q2 := rg_LL w). assert (Q3 := rg_AL (rzero n)). vext. ring.
Qed.
Lemma rg_LK : forall v k, length v = n -> rscale k (L v) = L (rscale k v).
Proof.
  intros v k H. assert (Z : length (rzero n) = n) by apply repeat_length. assert (E := raffine_point n M (rzero n) v k Z H).
  replace (rpoint (rzero n) v k) with (rscale k v) in E by (unfold rzero; vext; rewrite nth_repeat; ring).
  unfold L at 2. unfold rlin. rewrite E. assert (Q1 := rg_AL (rzero n)). assert (Q2 := rg_LL v). unfold A, L in *. vext. ring.
Qed.
Lemma rg_LS : forall v w, length v = n -> length w = n -> rsub (L v) (L w) = L (rsub v w).
Proof.
  intros v w H1 H2. replace (rsub v w) with (radd v (rscale (-1) w)) by (vext; ring).
  rewrite <- rg_LA, <- rg_LK by len. assert (Q1 := rg_LL v). assert (Q2 := rg_LL w). vext. ring.
Qed.
Lemma rg_LD : forall v w, length v = n -> length w = n -> rdot (L v) (L w) = rdot v w.
Proof. intros v w H1 H2. unfold L. rewrite (similarity_dot n M 1) by assumption. ring. Qed.
Lemma rg_unit : forall v, unit_vec n v -> unit_vec n (L v).
Proof. intros v [H1 H2]. split; [ apply rg_LL | now rewrite rg_LD ]. Qed.
Lemma rg_normalize : forall v, unit_vec n v -> v_normalize (vS (L v)) = vS (L v).
Proof.
  intros v Hv. destruct (rg_unit v Hv) as [H1 H2]. assert (N : rnorm (L v) = 1) by (unfold rnorm; rewrite H2; apply sqrt_1).
  rewrite X_normalize_vec by (rewrite N; lra). rewrite N, Rinv_1, rscale_1. reflexivity.
Qed.

(** What the functions of the API do with the objects. *)
Lemma rg_point : forall p, length p = n -> m_mul_p (S n) (mS M) (vS p) = gl n A (vS p).
Proof. intros p H. rewrite X_affine, gl_S by (auto using rg_affine). reflexivity. Qed.
Lemma rg_vector : forall v, length v = n -> m_mul_p (S n) (strip_translation (S n) (mS M)) (vS v) = gl n L (vS v).
Proof. intros v H. rewrite X_lin, gl_S by (auto using rg_affine). reflexivity. Qed.
Lemma rg_ray : forall r, is_ray n r -> ray_transform (S n) (ray_lift r) (mS M) = gray n A L (ray_lift r).
Proof.
  intros r [H1 H2]. unfold ray_transform, gray, ray_lift. cbn [ray_origin ray_dir]. rewrite rg_point by assumption.
  rewrite rg_vector by apply H2. rewrite !gl_S. now rewrite rg_normalize by assumption.
Qed.
Lemma rg_line : forall l, is_line n l -> ln_transform (S n) (line_lift l) (mS M) = gline n A L (line_lift l).
Proof.
  intros r [H1 H2]. unfold ln_transform, gline, line_lift. cbn [ln_point ln_dir]. rewrite rg_point by assumption.
  rewrite rg_vector by apply H2. rewrite !gl_S. now rewrite rg_normalize by assumption.
Qed.
Definition order_kept (s : segment R) : Prop :=
  seg_transform (S n) (seg_lift s) (mS M) = Seg (m_mul_p (S n) (mS M) (vS (seg_start s))) (m_mul_p (S n) (mS M) (vS (seg_end s))).
Lemma rg_seg : forall s, is_segment n s -> order_kept s -> seg_transform (S n) (seg_lift s) (mS M) = gseg n A (seg_lift s).
Proof.
  intros s [H1 H2] K. unfold order_kept in K. rewrite K. unfold gseg, seg_lift. cbn [seg_start seg_end].
  now rewrite !rg_point by assumption.
Qed.
Lemma rg_seg_cases : forall s, is_segment n s ->
  order_kept s \/ seg_transform (S n) (seg_lift s) (mS M) = gseg n A (seg_lift (Seg (seg_end s) (seg_start s))).
Proof.
  intros s [H1 H2]. unfold order_kept, seg_transform, seg_make, seg_lift. cbn [seg_start seg_end]. destruct (v_lt _ _); [ now left | right ].
  unfold gseg. cbn [seg_start seg_end]. now rewrite !rg_point by assumption.
Qed.
Lemma gd_ray : forall r, is_ray n r -> good_ray n (ray_lift r).
Proof. intros r [H1 [H2 _]]. split; now apply good_S. Qed.
Lemma gd_line : forall r, is_line n r -> good_line n (line_lift r).
Proof. intros r [H1 [H2 _]]. split; now apply good_S. Qed.
Lemma gd_seg : forall r, is_segment n r -> good_seg n (seg_lift r).
Proof. intros r [H1 H2]. split; now apply good_S. Qed.

Ltac rr := first [ exact rg_AL | exact rg_LL | exact rg_AD | exact rg_AA | exact rg_AS | exact rg_LA | exact rg_LS | exact rg_LK | exact rg_LD
  | apply gd_ray; assumption | apply gd_line; assumption | apply gd_seg; assumption | apply good_S; assumption | idtac ].

Lemma rg_distance : forall p q, length p = n -> length q = n ->
  v_distance (m_mul_p (S n) (mS M) (vS p)) (m_mul_p (S n) (mS M) (vS q)) = v_distance (vS p) (vS q)
  /\ v_squared_distance (m_mul_p (S n) (mS M) (vS p)) (m_mul_p (S n) (mS M) (vS q)) = v_squared_distance (vS p) (vS q).
Proof.
  intros p q H1 H2. rewrite !rg_point by assumption. split; [ apply (push_dist n A L); rr | apply (push_sqdist n A L); rr ].
Qed.
Lemma rg_vectors : forall v w, length v = n -> length w = n ->
  let T x := m_mul_p (S n) (strip_translation (S n) (mS M)) (vS x) in
  v_dot (T v) (T w) = v_dot (vS v) (vS w) /\ v_length (T v) = v_length (vS v)
  /\ forall eps, v_is_parallel (T v) (T w) eps = v_is_parallel (vS v) (vS w) eps.
Proof.
  intros v w H1 H2 T. unfold T. rewrite !rg_vector by assumption.
  split; [ apply (push_dot n L); rr | ]. split; [ apply (push_len n L); rr | ].
  intros eps. unfold v_is_parallel. rewrite !(push_normalize n L) by rr. rewrite (push_dot n L); try (apply good_normalize; apply good_S; assumption); rr. reflexivity.
Qed.
Lemma rg_is_colinear : forall a b c e, length a = n -> length b = n -> length c = n -> 0 <= e ->
  v_is_colinear (m_mul_p (S n) (mS M) (vS a)) (m_mul_p (S n) (mS M) (vS b)) (m_mul_p (S n) (mS M) (vS c)) (Some e) = v_is_colinear (vS a) (vS b) (vS c) (Some e).
Proof.
  intros a b c e H1 H2 H3 He. rewrite !X_affine by (auto using rg_affine). fold A.
  assert (QA := rg_AL a). assert (QB := rg_AL b). assert (QC := rg_AL c).
  rewrite !X_is_colinear by (try assumption; congruence). rewrite !rg_AD by assumption. rewrite !rg_LD by len. reflexivity.
Qed.
Lemma rg_injective : forall p q, length p = n -> length q = n -> A p = A q -> p = q.
Proof.
  intros p q H1 H2 E. destruct HM as (_ & _ & D). specialize (D p q H1 H2). fold A in D. rewrite E in D.
  apply rdist_zero; [ congruence | ]. rewrite <- (Rmult_1_l (rdist p q)), <- D. unfold rdist, rnorm.
  replace (rsub (A q) (A q)) with (rzero n). 2: { assert (Q := rg_AL q). unfold rzero. vext. rewrite nth_repeat. ring. }
  rewrite rdot_rzero. apply sqrt_0.
Qed.
Lemma rg_v_eq : forall p q, length p = n -> length q = n -> v_eq (vS (A p)) (vS (A q)) = v_eq (vS p) (vS q).
Proof.
  intros p q H1 H2. assert (E1 := X_v_eq p q ltac:(congruence)). assert (E2 := X_v_eq (A p) (A q) ltac:(now rewrite !rg_AL)).
  apply eq_true_iff_eq. rewrite E1, E2. split; [ now apply rg_injective | now intros -> ].
Qed.
Lemma rg_is_between : forall p s e, length p = n -> length s = n -> length e = n ->
  v_is_between (m_mul_p (S n) (mS M) (vS p)) (m_mul_p (S n) (mS M) (vS s)) (m_mul_p (S n) (mS M) (vS e)) = v_is_between (vS p) (vS s) (vS e).
Proof.
  intros p s e H1 H2 H3. unfold v_is_between.
  assert (CE : exists c, colinear_epsilon = Some c /\ 0 <= c). { eexists. split; [ unfold colinear_epsilon; rewrite X_lit by lia; reflexivity | lra ]. }
  destruct CE as (c & -> & HC).
  rewrite rg_is_colinear by assumption. rewrite !X_affine by (auto using rg_affine). fold A. rewrite !rg_v_eq by assumption.
  rewrite <- !(gl_S n A). rewrite !(push_PP n A L) by rr. rewrite (push_normalize n L); rr; [ | apply good_sub; rr ].
  rewrite (push_dot n L); rr; [ reflexivity | apply good_sub; rr | apply good_normalize, good_sub; rr ].
Qed.
(** Lines, rays and segments. *)
Lemma rg_ray_point : forall r p, is_ray n r -> length p = n ->
  let r' := ray_transform (S n) (ray_lift r) (mS M) in let p' := m_mul_p (S n) (mS M) (vS p) in
  ray_point_sqdist r' p' = ray_point_sqdist (ray_lift r) (vS p) /\ ray_point_dist r' p' = ray_point_dist (ray_lift r) (vS p)
  /\ ray_point_status r' p' = ray_point_status (ray_lift r) (vS p).
Proof.
  intros r p HR Hp r' p'. unfold r', p'. rewrite rg_ray, rg_point by assumption. unfold ray_point_dist.
  rewrite (push_ray_point n A L) by rr. rewrite (push_ray_status n A L) by rr. auto.
Qed.
Lemma rg_ray_ray : forall l r, is_ray n l -> is_ray n r ->
  let l' := ray_transform (S n) (ray_lift l) (mS M) in let r' := ray_transform (S n) (ray_lift r) (mS M) in
  ray_ray_sqdist l' r' = ray_ray_sqdist (ray_lift l) (ray_lift r) /\ ray_ray_dist l' r' = ray_ray_dist (ray_lift l) (ray_lift r).
Proof.
  intros l r HL HR l' r'. unfold l', r'. rewrite !rg_ray by assumption. unfold ray_ray_dist. rewrite (push_ray_ray n A L) by rr. auto.
Qed.
Lemma rg_ray_line : forall r l, is_ray n r -> is_line n l ->
  let r' := ray_transform (S n) (ray_lift r) (mS M) in let l' := ln_transform (S n) (line_lift l) (mS M) in
  ray_line_sqdist r' l' = ray_line_sqdist (ray_lift r) (line_lift l) /\ ray_line_dist r' l' = ray_line_dist (ray_lift r) (line_lift l).
Proof.
  intros r l HR HL r' l'. unfold l', r'. rewrite rg_ray, rg_line by assumption. unfold ray_line_dist. rewrite (push_ray_line n A L) by rr. auto.
Qed.
Lemma rg_ray_seg : forall r s, is_ray n r -> is_segment n s -> order_kept s ->
  let r' := ray_transform (S n) (ray_lift r) (mS M) in let s' := seg_transform (S n) (seg_lift s) (mS M) in
  ray_seg_sqdist r' s' = ray_seg_sqdist (ray_lift r) (seg_lift s) /\ ray_seg_dist r' s' = ray_seg_dist (ray_lift r) (seg_lift s).
Proof.
  intros r s HR HS K r' s'. unfold r', s'. rewrite rg_ray, rg_seg by assumption. unfold ray_seg_dist. rewrite (push_ray_seg n A L) by rr. auto.
Qed.
Lemma rg_seg_contains : forall s p m, is_segment n s -> length p = n -> order_kept s ->
  seg_contains (seg_transform (S n) (seg_lift s) (mS M)) (m_mul_p (S n) (mS M) (vS p)) m = seg_contains (seg_lift s) (vS p) m.
Proof. intros s p m HS Hp K. rewrite rg_seg, rg_point by assumption. apply (push_seg_contains n A L); rr. Qed.
Lemma sp_swap : forall s p, is_segment n s -> length p = n ->
  pd_distance (seg_point_sqdist (seg_lift (Seg (seg_end s) (seg_start s))) (vS p)) = pd_distance (seg_point_sqdist (seg_lift s) (vS p)).
Proof.
  intros s p HS Hp. destruct (list_eq_dec Req_EM_T (seg_start s) (seg_end s)) as [E|E].
  - destruct s as [a b]. cbn [seg_start seg_end] in *. now rewrite E.
  - destruct (seg_point_ok n s p HS Hp E) as (t & T & N & D & _).
    assert (HS' : is_segment n (Seg (seg_end s) (seg_start s))) by (split; [ apply (proj2 HS) | apply (proj1 HS) ]).
    destruct (seg_point_ok n (Seg (seg_end s) (seg_start s)) p HS' Hp ltac:(cbn [seg_start seg_end]; congruence)) as (t' & T' & N' & D' & _).
    rewrite D, D'. cbn [pd_distance]. f_equal.     assert (SY : forall q, on_seg (Seg (seg_end s) (seg_start s)) q <-> on_seg s q).
    { intros q. destruct HS as [K1 K2]. split; intros H; unfold on_seg in *; cbn [seg_start seg_end] in *; apply on_segment_sym; auto; congruence. }
    destruct N as [N1 N2], N' as [N1' N2']. assert (X := N2 _ (proj1 (SY _) N1')). assert (Y := N2' _ (proj2 (SY _) N1)). rewrite !rdist2_rdist. cbv zeta in *. replace (rdist p (seg_at (Seg (seg_end s) (seg_start s)) t')) with (rdist p (seg_at s t)) by lra. reflexivity.
Qed.
Lemma rg_seg_point : forall s p, is_segment n s -> length p = n ->
  let s' := seg_transform (S n) (seg_lift s) (mS M) in let p' := m_mul_p (S n) (mS M) (vS p) in
  pd_distance (seg_point_sqdist s' p') = pd_distance (seg_point_sqdist (seg_lift s) (vS p))
  /\ pd_distance (seg_point_dist s' p') = pd_distance (seg_point_dist (seg_lift s) (vS p))
  /\ seg_length s' = seg_length (seg_lift s).
Proof.
  intros s p HS Hp s' p'.
  assert (HS' : is_segment n (Seg (seg_end s) (seg_start s))) by (split; [ apply (proj2 HS) | apply (proj1 HS) ]).
  assert (E : pd_distance (seg_point_sqdist s' p') = pd_distance (seg_point_sqdist (seg_lift s) (vS p)) /\ seg_length s' = seg_length (seg_lift s)).
  { unfold s', p'. rewrite rg_point by assumption. destruct (rg_seg_cases s HS) as [K|K].
    - rewrite rg_seg by assumption. rewrite (push_seg_point n A L) by rr. split; [ reflexivity | ].
      unfold seg_length, gseg, seg_lift. cbn [seg_start seg_end]. rewrite (push_PP n A L); rr; try (apply good_S, HS). 
      rewrite (push_len n L); rr; [ reflexivity | apply good_sub; apply good_S; apply HS ].
    - rewrite K. rewrite (push_seg_point n A L) by rr. split; [ now apply sp_swap | ].
      unfold seg_length, gseg, seg_lift. cbn [seg_start seg_end]. rewrite (push_PP n A L); rr; try (apply good_S, HS). 
      rewrite (push_len n L); rr; [ | apply good_sub; apply good_S; apply HS ]. rewrite !X_sub, !X_length. f_equal. apply rdist_sym. }
  destruct E as [E1 E2]. split; [ exact E1 | ]. split; [ | exact E2 ]. unfold seg_point_dist, pd_sqrt. cbn [pd_distance]. now rewrite E1.
Qed.
Lemma rg_ray_sphere : forall r c rad, is_ray n r -> length c = n ->
  intersect_ray_sphere (ray_transform (S n) (ray_lift r) (mS M)) (m_mul_p (S n) (mS M) (vS c)) rad = intersect_ray_sphere (ray_lift r) (vS c) rad.
Proof. intros r c rad HR Hc. rewrite rg_ray, rg_point by assumption. apply (push_ray_sphere n A L); rr. Qed.
End Rigid.
