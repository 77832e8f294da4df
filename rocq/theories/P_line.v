(** Proofs about lines and their projections (C47, C48). *)
From Coq Require Import ZArith Reals List Bool Lia Lra Psatz.
From Flocq Require Import Core.
From Verif Require Import Ops M_scalar M_vec M_mat M_geom Inst_XR S_vec S_geom.
From Verif Require Import P_ord P_xr P_vec P_vec2.
Import ListNotations.
Local Open Scope R_scope.
Notation vS := (map (@Some R)).

(** Lengths and inner products of compound vectors. *)
Ltac len :=
  repeat first [ rewrite radd_length by len | rewrite rsub_length by len | rewrite rscale_length | rewrite rneg_length
               | rewrite rpoint_length by len | rewrite repeat_length ]; try congruence; try lia.
Ltac dots := unfold rpoint in *;
  repeat first [ rewrite rdot_add_l by len | rewrite rdot_sub_l by len | rewrite rdot_scale_l | rewrite rdot_neg_l
               | rewrite rdot_add_r by len | rewrite rdot_sub_r by len | rewrite rdot_scale_r ].

Lemma rlist_ext : forall a b, length a = length b -> (forall i, (i < length a)%nat -> nth i a 0 = nth i b 0) -> a = b.
Proof. intros a b L H. apply nth_ext with 0 0; auto. Qed.
Lemma nth_rscale : forall k a i, nth i (rscale k a) 0 = k * nth i a 0.
Proof. intros k a. unfold rscale. induction a; intros [|i]; simpl; auto; ring. Qed.
Lemma nth_rneg : forall a i, nth i (rneg a) 0 = - nth i a 0.
Proof. unfold rneg. induction a; intros [|i]; simpl; auto; ring. Qed.
Lemma nth_radd : forall a b i, length a = length b -> nth i (radd a b) 0 = nth i a 0 + nth i b 0.
Proof. unfold radd. induction a; intros [|y b] i H; try discriminate; destruct i; simpl; try ring. apply IHa. now injection H. Qed.
Lemma nth_rsub : forall a b i, length a = length b -> nth i (rsub a b) 0 = nth i a 0 - nth i b 0.
Proof. unfold rsub. induction a; intros [|y b] i H; try discriminate; destruct i; simpl; try ring. apply IHa. now injection H. Qed.
(** Equality of compound vectors by components. *)
Ltac vext := unfold rpoint in *; apply rlist_ext; [ len | intros ?i _;
  repeat first [ rewrite nth_radd by len | rewrite nth_rsub by len | rewrite nth_rscale | rewrite nth_rneg ] ].

(** ** Canonical form *)
Lemma X_canonical : forall n l, is_line n l -> exists c, ln_canonical (line_lift l) = line_lift c
  /\ ln_point c = rsub (ln_point l) (rscale (rdot (ln_point l) (ln_dir l)) (ln_dir l))
  /\ (first_positive (ln_dir l) /\ ln_dir c = ln_dir l \/ first_positive (rneg (ln_dir l)) /\ ln_dir c = rneg (ln_dir l)).
Proof.
  intros n [p d] [L [L2 U]]. simpl in *.
  assert (F : d <> rzero (length d) ->
    (ln_flips (vS d) = false /\ first_positive d) \/ (ln_flips (vS d) = true /\ first_positive (rneg d))).
  { clear. intros N. induction d as [|x d IH]; [ destruct N; reflexivity | ]. simpl. cbn [o_eq XRops Xcmp cst].
    destruct (Req_bool_spec x 0) as [E|E].
    - cbn [negb]. subst x. destruct IH as [[H1 (k & x & r & H2 & H3)]|[H1 (k & x & r & H2 & H3)]].
      + intros H. apply N. unfold rzero in *. cbn [length repeat]. congruence.
      + left. split; [ exact H1 | ]. exists (S k), x, r. split; [ now rewrite H2 | exact H3 ].
      + right. split; [ exact H1 | ]. exists (S k), x, r. split; [ | exact H3 ]. unfold rneg in *. cbn [map]. rewrite H2. simpl. f_equal. ring.
    - cbn [negb]. cbn [o_lt XRops Xcmp]. destruct (Rlt_bool_spec x 0).
      + right. split; [ reflexivity | ]. exists O, (- x), (rneg d). split; [ reflexivity | lra ].
      + left. split; [ reflexivity | ]. exists O, x, d. split; [ reflexivity | lra ]. }
  assert (N : d <> rzero (length d)). { intros E. rewrite E, rdot_rzero in U. lra. }
  unfold ln_canonical, line_lift. cbn [ln_point ln_dir]. rewrite X_dot, X_scale_l, X_sub.
  destruct (F N) as [[-> H]|[-> H]].
  - exists (Ln (rsub p (rscale (rdot p d) d)) d). split; [ reflexivity | ]. split; [ reflexivity | ]. left. auto.
  - exists (Ln (rsub p (rscale (rdot p d) d)) (rneg d)). rewrite X_neg. split; [ reflexivity | ]. split; [ reflexivity | ]. right. auto.
Qed.

Lemma first_positive_unique : forall v, first_positive v -> first_positive (rneg v) -> False.
Proof.
  intros v (k & x & r & -> & P) (k' & x' & r' & E & P').
  assert (A : forall k k' x x' r r', rneg (repeat 0 k ++ x :: r) = repeat 0 k' ++ x' :: r' -> 0 < x -> 0 < x' -> False).
  { clear. induction k; intros [|k'] x x' r r' E P P'; simpl in E; injection E; intros; try lra. eauto. }
  eauto.
Qed.

(** The canonical line: same points, foot of the perpendicular from the origin, fixed orientation. *)
Lemma canonical_props : forall n l, is_line n l -> exists c, ln_canonical (line_lift l) = line_lift c
  /\ is_line n c /\ rdot (ln_point c) (ln_dir c) = 0 /\ first_positive (ln_dir c) /\ (forall q, on_line c q <-> on_line l q).
Proof.
  intros n l HL. destruct (X_canonical n l HL) as (c & E & Ep & Ed). exists c. split; [ exact E | ].
  destruct l as [p d], c as [p' d']. destruct HL as [L [L2 U]]. cbn [ln_point ln_dir] in *. subst p'.
  assert (Q : exists s, (s = 1 \/ s = -1) /\ d' = rscale s d).
  { destruct Ed as [[_ ->]|[_ ->]]; [ exists 1; rewrite rscale_1 | exists (-1); rewrite rscale_neg1 ]; auto. }
  destruct Q as (s & S & ->). assert (S2 : s * s = 1) by (destruct S; subst; lra).
  split; [ | split; [ | split ] ].
  - split; cbn [ln_point ln_dir]; [ len | ]. split; [ len | ]. dots. rewrite U. lra.
  - dots. rewrite U. ring.
  - destruct Ed as [[H ->]|[H ->]]; exact H.
  - intros q. unfold on_line. cbn [ln_point ln_dir]. split.
    + intros (t & ->). exists (t * s - rdot p d). vext. ring.
    + intros (t & ->). exists (s * (t + rdot p d)). vext. 
      replace (s * (t + rdot p d) * (s * nth i d 0)) with ((s * s) * (t + rdot p d) * nth i d 0) by ring. rewrite S2. ring.
Qed.

(** Two lines with the same points have the same direction up to sign. *)
Lemma same_points : forall n l m, is_line n l -> is_line n m -> (forall q, on_line l q <-> on_line m q) ->
  (ln_dir m = ln_dir l \/ ln_dir m = rneg (ln_dir l)) /\ exists t, ln_point m = rpoint (ln_point l) (ln_dir l) t.
Proof.
  intros n [p d] [q e] [L1 [L2 U]] [L3 [L4 V]] H. cbn [ln_point ln_dir] in *. unfold on_line in H. cbn [ln_point ln_dir] in H.
  destruct (proj2 (H q)) as (t & Et). { exists 0. rewrite rpoint_0; congruence. }
  destruct (proj2 (H (rpoint q e 1))) as (u & Eu). { now exists 1. }
  split; [ | eauto ].
  assert (E : e = rscale (u - t) d).
  { replace e with (rsub (rpoint q e 1) q). 2: { vext. ring. }
    rewrite Eu. rewrite Et at 1. vext. ring. }
  assert (K : (u - t) * (u - t) = 1). { rewrite E in V. rewrite rdot_scale_l, rdot_scale_r, U in V. lra. }
  assert (C : u - t = 1 \/ u - t = -1) by (destruct (Rle_lt_dec 0 (u - t)); [ left | right ]; nra).
  destruct C as [C|C]; rewrite C in E; [ left | right ]; rewrite E; [ apply rscale_1 | apply rscale_neg1 ].
Qed.

Lemma canonical_unique : forall n l m c c', is_line n l -> is_line n m ->
  ln_canonical (line_lift l) = line_lift c -> ln_canonical (line_lift m) = line_lift c' ->
  (c = c' <-> forall q, on_line l q <-> on_line m q).
Proof.
  intros n l m c c' HL HM EL EM.
  assert (INJ : forall a b, line_lift a = line_lift b -> a = b).
  { intros [a1 a2] [b1 b2] E. injection E as E1 E2. apply map_Some_inj in E1, E2. congruence. }
  destruct (canonical_props n l HL) as (x & E1 & X1 & X2 & X3 & X4). rewrite EL in E1. apply INJ in E1. subst x.
  destruct (canonical_props n m HM) as (x & E1 & Y1 & Y2 & Y3 & Y4). rewrite EM in E1. apply INJ in E1. subst x.
  split.
  - intros <- q. rewrite <- X4, <- Y4. tauto.
  - intros H. destruct (same_points n c c' X1 Y1) as [D (t & P)]. { intros q. rewrite X4, Y4. apply H. }
    assert (D' : ln_dir c' = ln_dir c).
    { destruct D as [D|D]; [ exact D | ]. rewrite D in Y3. destruct (first_positive_unique _ X3 Y3). }
    rewrite D', P in Y2. destruct X1 as [L1 [L2 U]]. 
    assert (t = 0). { unfold rpoint in Y2. rewrite rdot_add_l, rdot_scale_l, U, X2 in Y2 by len. lra. } subst t.
    rewrite rpoint_0 in P by congruence. destruct c, c'. simpl in *. congruence.
Qed.

Lemma v_ne_neg : forall (a b : list XR), v_ne a b = negb (v_eq a b).
Proof. reflexivity. Qed.
Lemma ln_eq_ok : forall n l m, is_line n l -> is_line n m ->
  (ln_eq (line_lift l) (line_lift m) = true <-> forall q, on_line l q <-> on_line m q)
  /\ ln_ne (line_lift l) (line_lift m) = negb (ln_eq (line_lift l) (line_lift m)).
Proof.
  intros n l m HL HM. destruct (canonical_props n l HL) as (c & E1 & X1 & _).
  destruct (canonical_props n m HM) as (c' & E2 & Y1 & _).
  rewrite <- (canonical_unique n l m c c' HL HM E1 E2). unfold ln_eq, ln_ne. rewrite E1, E2. unfold line_lift. cbn [ln_point ln_dir].
  destruct X1 as [L1 [L2 _]], Y1 as [L3 [L4 _]]. split.
  - rewrite andb_true_iff, !X_v_eq by congruence. destruct c, c'. simpl. split; [ intros [-> ->]; reflexivity | intros E; injection E; auto ].
  - rewrite !v_ne_neg, negb_andb. reflexivity.
Qed.

Lemma canonical_ok : forall n l, is_line n l ->
  exists c, ln_canonical (line_lift l) = line_lift c /\ is_line n c
    /\ (forall q, on_line c q <-> on_line l q)
    /\ (forall m, is_line n m -> (forall q, on_line m q <-> on_line l q) -> ln_canonical (line_lift m) = line_lift c)
    /\ ln_canonical (line_lift c) = line_lift c.
Proof.
  intros n l HL. destruct (canonical_props n l HL) as (c & E1 & X1 & X2 & X3 & X4). exists c.
  split; [ exact E1 | ]. split; [ exact X1 | ]. split; [ exact X4 | ].
  assert (A : forall m, is_line n m -> (forall q, on_line m q <-> on_line l q) -> ln_canonical (line_lift m) = line_lift c).
  { intros m HM H. destruct (canonical_props n m HM) as (c' & E2 & _). rewrite E2.
    apply (canonical_unique n m l c' c HM HL E2 E1) in H. congruence. }
  split; [ exact A | ]. apply A; auto.
Qed.
Lemma ln_is_equal_ok : forall l m, length (ln_point l) = length (ln_point m) -> length (ln_dir l) = length (ln_dir m) ->
  (ln_is_equal (line_lift l) (line_lift m) (Some 0) = true <-> l = m).
Proof.
  intros [p d] [q e] L1 L2. cbn [ln_point ln_dir] in *. unfold ln_is_equal, line_lift. cbn [ln_point ln_dir].
  rewrite andb_true_iff. change (v_is_equal (vS p) (vS q) (Some 0)) with (v_eq (vS p) (vS q)).
  change (v_is_equal (vS d) (vS e) (Some 0)) with (v_eq (vS d) (vS e)). rewrite !X_v_eq by assumption.
  split; [ intros [-> ->]; reflexivity | intros E; injection E; auto ].
Qed.

(** ** Projection *)
Lemma X_projection : forall o d p t,
  al_distance_to_projected_point (vS o) (vS d) (vS p) = Some (rdot (rsub p o) d)
  /\ al_point_at_distance (vS o) (vS d) (Some t) = vS (rpoint o d t)
  /\ al_project_point (vS o) (vS d) (vS p) = vS (rpoint o d (rdot (rsub p o) d)).
Proof.
  intros. unfold al_project_point, al_distance_to_projected_point, al_point_at_distance.
  rewrite X_sub, X_dot, !X_scale, !X_add. auto.
Qed.
Lemma proj_nearest : forall o d p t, length o = length d -> length p = length d -> rdot d d = 1 ->
  rdot (rsub p (rpoint o d (rdot (rsub p o) d))) (rsub p (rpoint o d (rdot (rsub p o) d)))
  + (t - rdot (rsub p o) d) * (t - rdot (rsub p o) d)
  = rdot (rsub p (rpoint o d t)) (rsub p (rpoint o d t)).
Proof.
  intros o d p t L1 L2 U. dots. rewrite U. rewrite !(rdot_comm d), !(rdot_comm o p). ring.
Qed.
Lemma rdist_le : forall a b c d, rdot (rsub a b) (rsub a b) <= rdot (rsub c d) (rsub c d) -> rdist a b <= rdist c d.
Proof. intros. unfold rdist, rnorm. now apply sqrt_le_1_alt. Qed.
Lemma project_ok : forall n l p, is_line n l -> length p = n ->
  exists q t, al_project_point (vS (ln_point l)) (vS (ln_dir l)) (vS p) = vS q
    /\ al_distance_to_projected_point (vS (ln_point l)) (vS (ln_dir l)) (vS p) = Some t
    /\ al_point_at_distance (vS (ln_point l)) (vS (ln_dir l)) (Some t) = vS q
    /\ nearest (on_line l) p q /\ q = rpoint (ln_point l) (ln_dir l) t
    /\ (forall q', nearest (on_line l) p q' -> q' = q)
    /\ (forall s, al_distance_to_projected_point (vS (ln_point l)) (vS (ln_dir l)) (vS (rpoint (ln_point l) (ln_dir l) s)) = Some s).
Proof.
  intros n [o d] p [L1 [L2 U]] L3. cbn [ln_point ln_dir] in *.
  destruct (X_projection o d p (rdot (rsub p o) d)) as (E1 & E2 & E3).
  exists (rpoint o d (rdot (rsub p o) d)), (rdot (rsub p o) d). rewrite E1, E2, E3.
  do 3 (split; [ reflexivity | ]).
  assert (NE : nearest (on_line (Ln o d)) p (rpoint o d (rdot (rsub p o) d))).
  { split; [ eexists; reflexivity | ]. intros q' (t & ->). cbn [ln_point ln_dir]. apply rdist_le.
    rewrite <- (proj_nearest o d p t) by congruence. assert (0 <= (t - rdot (rsub p o) d) * (t - rdot (rsub p o) d)) by apply Rle_0_sqr. lra. }
  split; [ exact NE | ]. split; [ reflexivity | ]. split.
  - intros q' [(t & E') N']. cbn [ln_point ln_dir] in E'. subst q'.
    assert (T : t = rdot (rsub p o) d).
    { specialize (N' _ (proj1 NE)). unfold rdist, rnorm in N'. apply sqrt_le_0 in N'; try apply rdot_nonneg.
      rewrite <- (proj_nearest o d p t) in N' by congruence. nra. }
    now rewrite T.
  - intros s. destruct (X_projection o d (rpoint o d s) 0) as (E & _). rewrite E. f_equal. dots. rewrite U. ring.
Qed.
Lemma ray_status_ok : forall n r p, is_ray n r -> length p = n ->
  let t := rdot (rsub p (ray_origin r)) (ray_dir r) in
  ray_point_status (ray_lift r) (vS p)
  = if Rlt_dec (/ 10000) t then Above else if Rlt_dec t (- / 10000) then Below else Inside.
Proof.
  intros n [o d] p [L1 [L2 U]] L3 t. cbn [ray_origin ray_dir] in *. unfold ray_point_status, ray_lift. cbn [ray_origin ray_dir].
  rewrite X_sub, X_dot. unfold point_status_epsilon. rewrite X_lit by lia. rewrite rdot_comm. fold t.
  cbn [o_lt XRops Xcmp o_neg X1]. replace (IZR 1 / IZR 10000) with (/ 10000) by (simpl; lra).
  destruct (Rlt_bool_spec (/ 10000) t), (Rlt_dec (/ 10000) t); try reflexivity; try lra.
  destruct (Rlt_bool_spec t (- / 10000)), (Rlt_dec t (- / 10000)); try reflexivity; try lra.
Qed.
(** A point of the ray's line is classified by its parameter. *)
Lemma ray_status_param : forall n r t, is_ray n r ->
  let q := rpoint (ray_origin r) (ray_dir r) t in
  (ray_point_status (ray_lift r) (vS q) = Above <-> / 10000 < t)
  /\ (ray_point_status (ray_lift r) (vS q) = Below <-> t < - / 10000)
  /\ (ray_point_status (ray_lift r) (vS q) = Inside <-> - / 10000 <= t <= / 10000).
Proof.
  intros n r t HR q. rewrite (ray_status_ok n r q HR).
  - destruct r as [o d]. destruct HR as [L1 [L2 U]]. cbn [ray_origin ray_dir] in *.
    assert (E : rdot (rsub q o) d = t). { unfold q. dots. rewrite U. ring. } rewrite E.
    destruct (Rlt_dec (/ 10000) t); [ | destruct (Rlt_dec t (- / 10000)) ]; intuition (try easy; try lra).
  - unfold q. destruct HR as [L1 [L2 U]]. len.
Qed.
