(** Proofs about distances (C52, C53). *)
From Coq Require Import ZArith Reals List Bool Lia Lra Psatz.
From Flocq Require Import Core.
From Verif Require Import Ops M_scalar M_vec M_mat M_geom M_dist Inst_XR S_vec S_geom S_dist.
From Verif Require Import P_ord P_xr P_vec P_vec2 P_line P_seg.
Import ListNotations.
Local Open Scope R_scope.

(** ** Points *)
Lemma rdist2_sym : forall a b, rdist2 a b = rdist2 b a.
Proof. intros. unfold rdist2. rewrite (rsub_anti a b), rdot_neg_l, rdot_comm, rdot_neg_l. ring. Qed.
Lemma rdist2_sqrt : forall a b, sqrt (rdist2 a b) = rdist a b.
Proof. reflexivity. Qed.
Lemma pd_sqrt_X : forall t a b, pd_sqrt (PD (Some t) (Some (rdist2 a b))) = PD (Some t) (Some (rdist a b)).
Proof. intros. unfold pd_sqrt. cbn [pd_position pd_distance]. rewrite X_sqrt by apply rdot_nonneg. reflexivity. Qed.

Lemma clamp_low : forall f t', 0 <= t' -> (Rmax f 0 - f) * (Rmax f 0 - f) <= (t' - f) * (t' - f).
Proof. intros f t' T. unfold Rmax. destruct (Rle_dec f 0); [ nra | ]. assert (H := Rle_0_sqr (t' - f)). unfold Rsqr in H. nra. Qed.
Lemma clamp_both : forall f L t', 0 <= t' <= L ->
  (Rmin (Rmax 0 f) L - f) * (Rmin (Rmax 0 f) L - f) <= (t' - f) * (t' - f).
Proof.
  intros f L t' T. assert (H := Rle_0_sqr (t' - f)). unfold Rsqr in H.
  unfold Rmax, Rmin. destruct (Rle_dec 0 f), (Rle_dec _ L); nra.
Qed.
Lemma ray_point_ok : forall n r p, is_ray n r -> length p = n ->
  exists t, let q := rpoint (ray_origin r) (ray_dir r) t in
    0 <= t /\ nearest (on_ray r) p q
    /\ ray_point_sqdist (ray_lift r) (vS p) = PD (Some t) (Some (rdist2 p q))
    /\ ray_point_dist (ray_lift r) (vS p) = PD (Some t) (Some (rdist p q)).
Proof.
  intros n [o d] p [L1 [L2 U]] L3. cbn [ray_origin ray_dir] in *.
  set (f := rdot (rsub p o) d). exists (Rmax f 0). set (t := Rmax f 0). cbv zeta.
  assert (T0 : 0 <= t) by apply Rmax_r.
  assert (E : ray_point_sqdist (ray_lift {| ray_origin := o; ray_dir := d |}) (vS p) = PD (Some t) (Some (rdist2 p (rpoint o d t)))).
  { unfold ray_point_sqdist, ray_lift. cbn [ray_origin ray_dir]. rewrite X_sub, X_dot. fold f. change (cst 0 : XR) with (Some 0).
    rewrite X_max2. fold t. cbn [o_eq XRops Xcmp]. unfold al_point_at_distance. rewrite X_scale, X_add, X_sub, !X_squared_length.
    fold (rpoint o d t). destruct (Req_bool_spec t 0) as [Z|Z].
    - rewrite Z, rpoint_0 by congruence. reflexivity.
    - rewrite rdist2_sym. reflexivity. }
  split; [ exact T0 | ]. split; [ | split; [ exact E | ] ].
  - split; [ exists t; auto | ]. intros q' (t' & T' & ->). cbn [ray_origin ray_dir]. apply rdist_le.
    rewrite <- (proj_nearest o d p t), <- (proj_nearest o d p t') by congruence. fold f.
    assert ((t - f) * (t - f) <= (t' - f) * (t' - f)); [ | lra ]. now apply clamp_low.
  - unfold ray_point_dist. rewrite E. apply pd_sqrt_X.
Qed.
Lemma seg_at_ok : forall s n u L x, is_segment n s -> unit_vec n u -> 0 < L -> rsub (seg_end s) (seg_start s) = rscale L u ->
  seg_at s x = rpoint (seg_start s) u x /\ rdist (seg_end s) (seg_start s) = L.
Proof.
  intros s n u L x [L1 L2] [U1 U2] HL E. assert (D : rdist (seg_end s) (seg_start s) = L).
  { unfold rdist. rewrite E, rnorm_scale. unfold rnorm. rewrite U2, sqrt_1, Rabs_pos_eq; lra. }
  split; [ | exact D ]. unfold seg_at. rewrite D, E. unfold rpoint. rewrite rscale_mul. do 2 f_equal. field. lra.
Qed.
Lemma X_seg_len : forall s n, is_segment n s -> seg_start s <> seg_end s ->
  exists u L, seg_direction (seg_lift s) = vS u /\ unit_vec n u /\ 0 < L /\ rsub (seg_end s) (seg_start s) = rscale L u
    /\ v_length (v_sub (seg_end (seg_lift s)) (seg_start (seg_lift s))) = Some L.
Proof.
  intros s n HS N. destruct (X_seg_direction s n HS N) as (u & L & A & B & C & D & _). exists u, L. repeat split; auto; try apply B.
  destruct s as [a b]. unfold seg_lift. cbn [seg_start seg_end] in *. rewrite X_sub, X_length. f_equal.
  apply (seg_at_ok (Seg a b) n u L 0 HS B C D).
Qed.
Lemma seg_point_ok : forall n s p, is_segment n s -> length p = n -> seg_start s <> seg_end s ->
  exists t, let q := seg_at s t in
    0 <= t <= rdist (seg_end s) (seg_start s) /\ nearest (on_seg s) p q
    /\ seg_point_sqdist (seg_lift s) (vS p) = PD (Some t) (Some (rdist2 p q))
    /\ seg_point_dist (seg_lift s) (vS p) = PD (Some t) (Some (rdist p q)).
Proof.
  intros n s p HS L3 N. destruct (X_seg_len s n HS N) as (u & L & E1 & U & HL & E2 & E3).
  assert (SP := seg_points s n u L HS U HL E2).
  set (f := rdot (rsub p (seg_start s)) u). set (t := Rmin (Rmax 0 f) L). exists t. cbv zeta.
  destruct (seg_at_ok s n u L t HS U HL E2) as [-> ->].
  assert (T0 : 0 <= t <= L). { unfold t, Rmin, Rmax. destruct (Rle_dec 0 f), (Rle_dec _ L); lra. }
  assert (E : seg_point_sqdist (seg_lift s) (vS p) = PD (Some t) (Some (rdist2 p (rpoint (seg_start s) u t)))).
  { unfold seg_point_sqdist. rewrite E3, E1. destruct s as [a b]. unfold seg_lift in *. cbn [seg_start seg_end] in *. rewrite !X_sub, E2.
    rewrite X_div_s by lra. rewrite rscale_mul, Rinv_l, rscale_1 by lra. rewrite X_dot. fold f.
    change (cst 0 : XR) with (Some 0). rewrite X_max2, X_min2. fold t. unfold al_point_at_distance. rewrite X_scale, X_add, X_sub, X_squared_length. reflexivity. }
  split; [ exact T0 | ]. split; [ | split; [ exact E | ] ].
  - split; [ apply SP; eauto | ]. intros q' Q. apply SP in Q as (t' & T' & ->). apply rdist_le. destruct HS as [H1 H2], U as [U1 U2].
    rewrite <- (proj_nearest (seg_start s) u p t), <- (proj_nearest (seg_start s) u p t') by congruence. fold f.
    assert ((t - f) * (t - f) <= (t' - f) * (t' - f)); [ | lra ]. now apply clamp_both.
  - unfold seg_point_dist. rewrite E. apply pd_sqrt_X.
Qed.
Lemma seg_point_degenerate : forall n s p, is_segment (S n) s -> length p = S n -> seg_start s = seg_end s ->
  pd_distance (seg_point_sqdist (seg_lift s) (vS p)) = None.
Proof.
  intros n [a b] p [L1 L2] L3 E. cbn [seg_start seg_end] in *. subst b.
  unfold seg_point_sqdist, seg_direction, al_point_at_distance, seg_lift. cbn [seg_start seg_end pd_distance].
  set (pos := sc_min _ _). rewrite X_sub, rsub_self, X_normalize_zero, L1.
  destruct a as [|x a]; try discriminate. destruct p as [|y p]; try discriminate.
  unfold v_squared_length. cbn [repeat v_scale map v_add v_sub map2]. 
  assert (Z : o_sub (Some y) (o_add (Some x) (o_mul None pos)) = None) by reflexivity. rewrite Z. now rewrite X_dot_None.
Qed.

(** ** Two lines: the squared distance as a function of the two parameters *)
Section Two.
Variables (p q u v : list R) (n : nat).
Hypothesis (Lp : length p = n) (Lq : length q = n) (Lu : length u = n) (Lv : length v = n).
Hypothesis (Vv : rdot v v = 1).
Let w := rsub p q.
Let a := rdot u u.
Let b := rdot u v.
Let d := rdot u w.
Let e := rdot v w.
Let D := a - b * b.
Let f (s t : R) : R := rdist2 (rpoint q v t) (rpoint p u s).

Lemma f_expand : forall s t, f s t = rdot w w + s * s * a + t * t + 2 * s * d - 2 * t * e - 2 * s * t * b.
Proof.
  intros s t. unfold f, rdist2. 
  replace (rsub (rpoint q v t) (rpoint p u s)) with (rsub (rsub (rscale t v) (rscale s u)) w) by (unfold w; vext; ring).
  unfold a, b, d, e. assert (Lw : length w = n) by (unfold w; len).
  dots. rewrite Vv, (rdot_comm w u), (rdot_comm w v), (rdot_comm v u). ring.
Qed.
Lemma D_nonneg : 0 <= D /\ 0 <= a.
Proof.
  assert (A := cauchy_schwarz u v ltac:(congruence)). split; [ | apply rdot_nonneg ].
  unfold D, a, b. rewrite Vv in A. lra.
Qed.
(** First order condition. *)
Lemma kkt : forall s t s' t', 0 <= (d + a * s - b * t) * (s' - s) -> 0 <= (t - e - b * s) * (t' - t) -> f s t <= f s' t'.
Proof.
  intros s t s' t' H1 H2. rewrite !f_expand. destruct D_nonneg as [D0 A0]. unfold D in D0.
  assert (Q : 0 <= a * (s' - s) * (s' - s) - 2 * b * (s' - s) * (t' - t) + (t' - t) * (t' - t)).
  { replace (a * (s' - s) * (s' - s) - 2 * b * (s' - s) * (t' - t) + (t' - t) * (t' - t))
      with ((a - b * b) * ((s' - s) * (s' - s)) + ((t' - t) - b * (s' - s)) * ((t' - t) - b * (s' - s))) by ring.
    assert (X1 := Rle_0_sqr (s' - s)). assert (X2 := Rle_0_sqr ((t' - t) - b * (s' - s))). unfold Rsqr in *.
    assert (0 <= (a - b * b) * ((s' - s) * (s' - s))) by (apply Rmult_le_pos; assumption). lra. }
  nra.
Qed.
(** There is only one pair of closest points. *)
Lemma unique_min : forall (P : R -> Prop) s t s' t', 0 < D -> 
  (forall x y, P x -> P y -> P ((x + y) / 2)) -> P s -> P s' ->
  (forall x y, P x -> f s t <= f x y) -> (forall x y, P x -> f s' t' <= f x y) -> s = s' /\ t = t'.
Proof.
  intros P s t s' t' HD HP Ps Ps' M1 M2.
  assert (E1 := M1 s' t' Ps'). assert (E2 := M2 s t Ps). assert (E3 := M1 ((s + s') / 2) ((t + t') / 2) (HP _ _ Ps Ps')).
  rewrite !f_expand in *. unfold D in HD.
  assert (Q : (a - b * b) * ((s' - s) * (s' - s)) + ((t' - t) - b * (s' - s)) * ((t' - t) - b * (s' - s)) <= 0) by nra.
  assert (X1 := Rle_0_sqr (s' - s)). assert (X2 := Rle_0_sqr ((t' - t) - b * (s' - s))). unfold Rsqr in *.
  assert (Y : (s' - s) * (s' - s) = 0) by nra. assert (S0 : s' - s = 0) by nra. rewrite S0 in *.
  assert (T0 : t' - t = 0) by nra. lra.
Qed.
End Two.

(** ** Ray and segment, ray and ray *)
Lemma X_zero_test : forall x, sc_is_zero (Some x) (almost_zero : XR) = Rle_bool (Rabs x) (/ 1000).
Proof. intros x. unfold almost_zero. rewrite X_lit by lia. rewrite X_is_zero by (simpl; lra). f_equal. simpl; lra. Qed.
Definition snap (x y : R) : R := if Rle_dec (Rabs x) (/ 1000) then 0 else y.
Lemma X_snap : forall x y, y <> 0 -> (if sc_is_zero (Some x) almost_zero then cst 0 else o_div (Some x) (Some y)) = (Some (snap x (x / y)) : XR).
Proof.
  intros x y Y. rewrite X_zero_test, X_div by exact Y. unfold snap.
  destruct (Rle_bool_spec (Rabs x) (/ 1000)), (Rle_dec (Rabs x) (/ 1000)); try reflexivity; lra.
Qed.
Lemma snap_num : forall x y, 0 < y -> 0 <= x -> x = 0 \/ / 1000 < x -> snap x (x / y) = x / y.
Proof. intros x y Y X H. unfold snap. destruct (Rle_dec _ _) as [L|L]; [ | reflexivity ]. rewrite Rabs_pos_eq in L by lra. destruct H as [->|H]; [ unfold Rdiv; ring | lra ]. Qed.
Lemma snap_range : forall x y L, 0 < y -> 0 <= x -> x <= L * y -> 0 <= L -> 0 <= snap x (x / y) <= L.
Proof.
  intros x y L Y X XL HL. assert (I := Rinv_0_lt_compat y Y). unfold snap. destruct (Rle_dec _ _); [ lra | ]. unfold Rdiv. split; [ nra | ].
  apply Rmult_le_reg_r with y; [ exact Y | ]. rewrite Rmult_assoc, Rinv_l; lra.
Qed.
Lemma dP_ok : forall n p q u v s t, length p = n -> length q = n -> length u = n -> length v = n ->
  v_squared_length (v_sub (v_add (vS (rsub p q)) (v_scale (vS u) (Some s))) (v_scale (vS v) (Some t)))
  = Some (rdist2 (rpoint q v t) (rpoint p u s)).
Proof.
  intros. rewrite !X_scale, X_add, X_sub, X_squared_length. f_equal. rewrite rdist2_sym. unfold rdist2.
  replace (rsub (rpoint p u s) (rpoint q v t)) with (rsub (radd (rsub p q) (rscale s u)) (rscale t v)) by (vext; ring). reflexivity.
Qed.
(** The parameters chosen for lines that are not parallel: that of the second object is s, at most
    [top] if given. *)
Definition chosen (top : option R) (a b d e : R) (s t : R) : Prop :=
  let D := a - b * b in
  exists sN tN tD, s = snap sN (sN / D) /\ t = Rmax (snap tN (tN / tD)) 0
    /\ ((b * e - d < 0 /\ sN = 0 /\ tN = e /\ tD = 1)
        \/ (exists m, top = Some m /\ m * D < b * e - d /\ sN = m * D /\ tN = e + b * m /\ tD = 1)
        \/ (0 <= b * e - d /\ (forall m, top = Some m -> b * e - d <= m * D) /\ sN = b * e - d /\ tN = a * e - b * d /\ tD = D)).
Lemma X_ray_seg : forall n r s, is_ray n r -> is_segment n s ->
  let u := rsub (seg_end s) (seg_start s) in let v := ray_dir r in let w := rsub (seg_start s) (ray_origin r) in
  (area2 u v <= / 1000 -> ray_seg_sqdist (ray_lift r) (seg_lift s) = ray_seg_parallel (ray_lift r) (seg_lift s))
  /\ (/ 1000 < area2 u v -> exists x t, chosen (Some 1) (rdot u u) (rdot u v) (rdot u w) (rdot v w) x t
      /\ ray_seg_sqdist (ray_lift r) (seg_lift s)
         = LD false (Some t) (Some (rdist2 (rpoint (ray_origin r) v t) (rpoint (seg_start s) u x))) (Some (x * sqrt (rdot u u)))).
Proof.
  intros n [o v] [p1 p2] [L1 [L2 U]] [L3 L4]. cbn [ray_origin ray_dir seg_start seg_end] in *. cbv zeta.
  set (u := rsub p2 p1). set (w := rsub p1 o). assert (Lu : length u = n) by (unfold u; len).
  unfold ray_seg_sqdist, ray_lift, seg_lift. cbn [ray_origin ray_dir seg_start seg_end]. rewrite !X_sub. fold u w. rewrite !X_dot.
  unfold area2. rewrite U. set (a := rdot u u). set (b := rdot u v). set (d := rdot u w). set (e := rdot v w).
  cbv zeta. cbn [o_mul o_sub o_add o_lt XRops X2 Xcmp].
  assert (AP := rdot_nonneg u). fold a in AP. assert (CS := cauchy_schwarz u v ltac:(congruence)). rewrite U in CS. fold a b in CS.
  rewrite X_zero_test. rewrite Rabs_pos_eq by lra. split; intros H.
  - rewrite Rle_bool_true by exact H. reflexivity.
  - rewrite Rle_bool_false by exact H. change (cst 0 : XR) with (Some 0). change (Some 0 : XR) with (Some 0). cbn [o_lt XRops Xcmp].
    replace (a * 1 - b * b) with (a - b * b) by ring. replace (a * 1 - b * b) with (a - b * b) in H by ring.
    assert (DP : a - b * b <> 0) by lra.
    destruct (Rlt_bool_spec (b * e - 1 * d) 0) as [C1|C1]; [ | destruct (Rlt_bool_spec (a - b * b) (b * e - 1 * d)) as [C2|C2] ]; cbv iota beta.
    + exists (snap 0 (0 / (a - b * b))), (Rmax (snap e (e / 1)) 0). split.
      { exists 0, e, 1. split; [ reflexivity | ]. split; [ reflexivity | ]. left. repeat split; lra. }
      rewrite !X_snap by lra. rewrite X_max2. unfold w. rewrite (dP_ok n) by assumption. rewrite X_sqrt by exact AP. reflexivity.
    + exists (snap (a - b * b) ((a - b * b) / (a - b * b))), (Rmax (snap (e + b) ((e + b) / 1)) 0). split.
      { exists (a - b * b), (e + b), 1. split; [ reflexivity | ]. split; [ reflexivity | ]. right; left. exists 1. repeat split; lra. }
      rewrite !X_snap by lra. rewrite X_max2. unfold w. rewrite (dP_ok n) by assumption. rewrite X_sqrt by exact AP. reflexivity.
    + exists (snap (b * e - 1 * d) ((b * e - 1 * d) / (a - b * b))), (Rmax (snap (a * e - b * d) ((a * e - b * d) / (a - b * b))) 0). split.
      { exists (b * e - 1 * d), (a * e - b * d), (a - b * b). split; [ reflexivity | ]. split; [ reflexivity | ]. right; right.
        repeat split; try lra. intros m E. injection E as <-. lra. }
      rewrite !X_snap by lra. rewrite X_max2. unfold w. rewrite (dP_ok n) by assumption. rewrite X_sqrt by exact AP. reflexivity.
Qed.
Lemma X_ray_ray : forall n l r, is_ray n l -> is_ray n r ->
  let u := ray_dir r in let v := ray_dir l in let w := rsub (ray_origin r) (ray_origin l) in
  (area2 u v <= / 1000 -> ray_ray_sqdist (ray_lift l) (ray_lift r)
     = LD true (Some (Rmax 0 (rdot w v)))
         (Some (rdist2 (rpoint (ray_origin l) v (rdot w v)) (ray_origin r))) (Some (Rmax 0 (- rdot w u))))
  /\ (/ 1000 < area2 u v -> exists x t, chosen None 1 (rdot u v) (rdot u w) (rdot v w) x t
      /\ ray_ray_sqdist (ray_lift l) (ray_lift r)
         = LD false (Some t) (Some (rdist2 (rpoint (ray_origin l) v t) (rpoint (ray_origin r) u x))) (Some x)).
Proof.
  intros n [o v] [p1 u] [L1 [L2 U]] [L3 [L4 U']]. cbn [ray_origin ray_dir] in *. cbv zeta.
  set (w := rsub p1 o).
  unfold ray_ray_sqdist, ray_lift. cbn [ray_origin ray_dir]. rewrite !X_sub. fold w. rewrite !X_dot.
  unfold area2. rewrite U, U'. set (b := rdot u v). set (d := rdot u w). set (e := rdot v w).
  cbv zeta. cbn [o_mul o_sub o_add o_lt XRops X2 Xcmp].
  assert (CS := cauchy_schwarz u v ltac:(congruence)). rewrite U, U' in CS. fold b in CS.
  rewrite X_zero_test. rewrite Rabs_pos_eq by lra. split; intros H.
  - rewrite Rle_bool_true by exact H. destruct (X_projection o v p1 0) as (-> & _ & ->). fold w.
    destruct (X_projection p1 u o 0) as (-> & _). change (cst 0 : XR) with (Some 0). rewrite !X_max2, X_squared_distance.
    replace (rdot (rsub o p1) u) with (- rdot w u). { reflexivity. } unfold w. rewrite (rsub_anti o p1), rdot_neg_l. reflexivity.
  - rewrite Rle_bool_false by exact H. change (cst 0 : XR) with (Some 0). cbn [o_lt XRops Xcmp].
    replace (1 * 1 - b * b) with (1 - b * b) by ring. replace (1 * 1 - b * b) with (1 - b * b) in H by ring.
    assert (DP : 1 - b * b <> 0) by lra.
    destruct (Rlt_bool_spec (b * e - 1 * d) 0) as [C1|C1]; cbv iota beta.
    + exists (snap 0 (0 / (1 - b * b))), (Rmax (snap e (e / 1)) 0). split.
      { exists 0, e, 1. split; [ reflexivity | ]. split; [ reflexivity | ]. left. repeat split; lra. }
      rewrite !X_snap by lra. rewrite X_max2. unfold w. rewrite (dP_ok n) by assumption. reflexivity.
    + exists (snap (b * e - 1 * d) ((b * e - 1 * d) / (1 - b * b))), (Rmax (snap (1 * e - b * d) ((1 * e - b * d) / (1 - b * b))) 0). split.
      { exists (b * e - 1 * d), (1 * e - b * d), (1 - b * b). split; [ reflexivity | ]. split; [ reflexivity | ]. right; right.
        repeat split; try lra. discriminate. }
      rewrite !X_snap by lra. rewrite X_max2. unfold w. rewrite (dP_ok n) by assumption. reflexivity.
Qed.
Definition range (top : option R) (x : R) : Prop := 0 <= x /\ forall m, top = Some m -> x <= m.
Lemma chosen_min : forall p q u v n top s0 t0 s t,
  length p = n -> length q = n -> length u = n -> length v = n -> rdot v v = 1 ->
  let w := rsub p q in let D := area2 u v in
  / 1000 < D -> (forall m, top = Some m -> 0 < m) ->
  range top s0 -> 0 <= t0 ->
  (forall s' t', range top s' -> rdist2 (rpoint q v t0) (rpoint p u s0) <= rdist2 (rpoint q v t') (rpoint p u s')) ->
  s0 = 0 \/ / 1000 < s0 * D -> t0 = 0 \/ (/ 1000 < t0 /\ / 1000 < t0 * D) ->
  chosen top (rdot u u) (rdot u v) (rdot u w) (rdot v w) s t -> s = s0 /\ t = t0.
Proof.
  intros p q u v n top s0 t0 s t Lp Lq Lu Lv Vv w D HD HT R0 T0 MIN SS ST (sN & tN & tD & Es & Et & C).
  unfold area2 in D. assert (ED : D = rdot u u - rdot u v * rdot u v) by (unfold D; rewrite Vv; ring). clearbody D. rewrite <- ED in *.
  set (a := rdot u u) in *. set (b := rdot u v) in *. set (d := rdot u w) in *. set (e := rdot v w) in *.
  assert (DP : 0 < D) by lra.
  assert (K : forall cs ct, range top cs ->
     (forall s', range top s' -> 0 <= (d + a * cs - b * ct) * (s' - cs)) -> ct - e - b * cs = 0 -> s0 = cs /\ t0 = ct).
  { intros cs ct RC G1 G2. 
    apply (unique_min p q u v n Lp Lq Lu Lv Vv (range top) s0 t0 cs ct).
    - fold a b. lra.
    - intros x y [X1 X2] [Y1 Y2]. split; [ lra | ]. intros m Em. specialize (X2 m Em). specialize (Y2 m Em). lra.
    - exact R0.
    - exact RC.
    - intros x y Px. now apply MIN.
    - intros x y Px. apply (kkt p q u v n Lp Lq Lu Lv Vv); fold w; fold a b d e.
      + now apply G1.
      + rewrite G2. lra. }
  assert (I := Rinv_0_lt_compat D DP).
  destruct C as [(C1 & -> & -> & ->)|[(m & Em & C1 & -> & -> & ->)|(C1 & C2 & -> & -> & ->)]].
  - destruct (K 0 e) as [K1 K2].
    + split; [ lra | ]. intros m Em. specialize (HT m Em). lra.
    + intros s' [S1 _]. nra.
    + lra.
    + subst s0 t0. split.
      * rewrite Es. rewrite snap_num by lra. unfold Rdiv. ring.
      * rewrite Et. rewrite snap_num by lra. rewrite Rmax_left by lra. lra.
  - assert (M := HT m Em). destruct (K m (e + b * m)) as [K1 K2].
    + split; [ lra | ]. intros m' Em'. rewrite Em in Em'. injection Em' as <-. lra.
    + intros s' [S1 S2]. specialize (S2 m Em). assert (G : d + a * m - b * (e + b * m) <= 0) by (replace (d + a * m - b * (e + b * m)) with (d - b * e + m * (a - b * b)) by ring; rewrite <- ED; lra). nra.
    + lra.
    + subst s0 t0. assert (0 <= m * D) by nra. split.
      * rewrite Es. rewrite snap_num; [ field; lra | lra | lra | ]. destruct SS as [SS|SS]; [ left; rewrite SS; ring | right; lra ].
      * rewrite Et. rewrite snap_num by lra. rewrite Rmax_left by lra. lra.
  - destruct (K ((b * e - d) / D) ((a * e - b * d) / D)) as [K1 K2].
    + split. { unfold Rdiv. nra. } intros m Em. specialize (C2 m Em). apply Rmult_le_reg_r with D; [ exact DP | ]. unfold Rdiv. rewrite Rmult_assoc, Rinv_l; lra.
    + intros s' _. replace (d + a * ((b * e - d) / D) - b * ((a * e - b * d) / D)) with 0; [ lra | ]. rewrite ED. field. lra.
    + rewrite ED. field. lra.
    + assert (E1 : s0 * D = b * e - d) by (rewrite K1; field; lra). assert (E2 : t0 * D = a * e - b * d) by (rewrite K2; field; lra).
      rewrite <- E1 in *. rewrite <- E2 in *. assert (0 <= t0 * D) by nra. split.
      * rewrite Es, snap_num; [ congruence | lra | lra | ]. destruct SS as [SS|SS]; [ left; rewrite SS; ring | right; lra ].
      * rewrite Et, snap_num; [ | lra | lra | ].
        -- rewrite <- K2. now apply Rmax_left.
        -- destruct ST as [ST|ST]; [ left; rewrite ST; ring | right; lra ].
Qed.
(** Whatever is chosen is in range. *)
Lemma chosen_range : forall top a b d e s t, 0 < a - b * b -> (forall m, top = Some m -> 0 < m) ->
  chosen top a b d e s t -> range top s /\ 0 <= t.
Proof.
  intros top a b d e s t D HT (sN & tN & tD & -> & -> & C). split; [ | apply Rmax_r ].
  destruct C as [(C1 & -> & _)|[(m & Em & C1 & -> & _)|(C1 & C2 & -> & _)]].
  - unfold range, snap. destruct (Rle_dec _ _).
    + split; [ lra | ]. intros m Em. specialize (HT m Em). lra.
    + rewrite Rabs_R0 in *. lra.
  - assert (M := HT m Em). destruct (snap_range (m * (a - b * b)) (a - b * b) m) as [S1 S2]; try nra.
    split; [ exact S1 | ]. intros m' Em'. rewrite Em in Em'. injection Em' as <-. exact S2.
  - destruct top as [m|].
    + assert (M := HT m eq_refl). destruct (snap_range (b * e - d) (a - b * b) m) as [S1 S2]; try lra. { now apply C2. }
      split; [ exact S1 | ]. intros m' Em'. injection Em' as <-. exact S2.
    + destruct (snap_range (b * e - d) (a - b * b) ((b * e - d) / (a - b * b))) as [S1 S2]; try lra.
      { right. field. lra. } { apply Rmult_le_pos; [ lra | left; now apply Rinv_0_lt_compat ]. }
      split; [ exact S1 | discriminate ].
Qed.

Lemma ray_on_line : forall r q, on_ray r q -> on_line (ray_line r) q.
Proof. intros r q (t & T & ->). now exists t. Qed.
Lemma ray_seg_min : forall n r s x t, is_ray n r -> is_segment n s ->
  let u := rsub (seg_end s) (seg_start s) in let D := area2 u (ray_dir r) in
  let q1 := rpoint (ray_origin r) (ray_dir r) t in let q2 := rlerp (seg_start s) (seg_end s) x in
  / 1000 < D -> 0 <= t -> 0 <= x <= 1 -> closest (on_line (ray_line r)) (on_seg s) q1 q2 ->
  x = 0 \/ / 1000 < x * D -> t = 0 \/ (/ 1000 < t /\ / 1000 < t * D) ->
  closest (on_ray r) (on_seg s) q1 q2
  /\ ray_seg_sqdist (ray_lift r) (seg_lift s) = LD false (Some t) (Some (rdist2 q1 q2)) (Some (x * rnorm u))
  /\ ray_seg_dist (ray_lift r) (seg_lift s) = LD false (Some t) (Some (rdist q1 q2)) (Some (x * rnorm u)).
Proof.
  intros n r s x t HR HS u D q1 q2 HD T X (C1 & C2 & C3) SX ST.
  destruct (X_ray_seg n r s HR HS) as [_ A]. destruct (A HD) as (x' & t' & CH & E). fold u in CH, E.
  destruct HR as [R1 [R2 R3]], HS as [S1 S2]. assert (Lu : length u = n) by (unfold u; len).
  destruct (chosen_min (seg_start s) (ray_origin r) u (ray_dir r) n (Some 1) x t x' t') as [-> ->]; auto.
  - intros m Em. injection Em as <-. lra.
  - split; [ lra | ]. intros m Em. injection Em as <-. lra.
  - intros s' t'' [Q1 Q2]. specialize (Q2 1 eq_refl). apply C3; [ now exists t'' | ]. exists s'. split; [ lra | reflexivity ].
  - fold (rnorm u) in E.
    assert (E' : ray_seg_sqdist (ray_lift r) (seg_lift s) = LD false (Some t) (Some (rdist2 q1 q2)) (Some (x * rnorm u))) by exact E.
    split; [ | split; [ exact E' | ] ].
    + split; [ now exists t | ]. split; [ exact C2 | ]. intros a b HA HB. apply C3; [ now apply ray_on_line | exact HB ].
    + unfold ray_seg_dist, ld_sqrt. rewrite E'. cbn [ld_parallel ld_position1 ld_distance ld_position2]. rewrite X_sqrt by apply rdot_nonneg. reflexivity.
Qed.
Lemma ray_ray_min : forall n l r x t, is_ray n l -> is_ray n r ->
  let D := area2 (ray_dir r) (ray_dir l) in
  let q1 := rpoint (ray_origin l) (ray_dir l) t in let q2 := rpoint (ray_origin r) (ray_dir r) x in
  / 1000 < D -> 0 <= t -> 0 <= x -> closest (on_line (ray_line l)) (on_ray r) q1 q2 ->
  x = 0 \/ / 1000 < x * D -> t = 0 \/ (/ 1000 < t /\ / 1000 < t * D) ->
  closest (on_ray l) (on_ray r) q1 q2
  /\ ray_ray_sqdist (ray_lift l) (ray_lift r) = LD false (Some t) (Some (rdist2 q1 q2)) (Some x)
  /\ ray_ray_dist (ray_lift l) (ray_lift r) = LD false (Some t) (Some (rdist q1 q2)) (Some x).
Proof.
  intros n l r x t HL HR D q1 q2 HD T X (C1 & C2 & C3) SX ST.
  destruct (X_ray_ray n l r HL HR) as [_ A]. destruct (A HD) as (x' & t' & CH & E).
  destruct HR as [R1 [R2 R3]], HL as [S1 [S2 S3]]. 
  destruct (chosen_min (ray_origin r) (ray_origin l) (ray_dir r) (ray_dir l) n None x t x' t') as [-> ->]; auto.
  - discriminate.
  - split; [ lra | discriminate ].
  - intros s' t'' [Q1 _]. apply C3; [ now exists t'' | ]. exists s'. split; [ lra | reflexivity ].
  - now rewrite R3.
  - assert (E' : ray_ray_sqdist (ray_lift l) (ray_lift r) = LD false (Some t) (Some (rdist2 q1 q2)) (Some x)) by exact E.
    split; [ | split; [ exact E' | ] ].
    + split; [ now exists t | ]. split; [ exact C2 | ]. intros a b HA HB. apply C3; [ now apply ray_on_line | exact HB ].
    + unfold ray_ray_dist, ld_sqrt. rewrite E'. cbn [ld_parallel ld_position1 ld_distance ld_position2]. rewrite X_sqrt by apply rdot_nonneg. reflexivity.
Qed.
(** In all cases that are not parallel the result belongs to points of the two objects: it is never
    less than the distance. *)
Lemma ray_seg_sound : forall n r s, is_ray n r -> is_segment n s ->
  let u := rsub (seg_end s) (seg_start s) in
  / 1000 < area2 u (ray_dir r) -> exists x t, let q1 := rpoint (ray_origin r) (ray_dir r) t in let q2 := rlerp (seg_start s) (seg_end s) x in
  on_ray r q1 /\ on_seg s q2
  /\ ray_seg_sqdist (ray_lift r) (seg_lift s) = LD false (Some t) (Some (rdist2 q1 q2)) (Some (x * rnorm u)).
Proof.
  intros n r s HR HS u HD. destruct (X_ray_seg n r s HR HS) as [_ A]. destruct (A HD) as (x' & t' & CH & E). fold u in CH, E.
  destruct HR as [R1 [R2 R3]]. 
  apply chosen_range in CH as [[X1 X2] T]. 2: { unfold area2 in HD. rewrite R3 in HD. lra. } 2: { intros m Em. injection Em as <-. lra. }
  exists x', t'. split; [ now exists t' | ]. split; [ | exact E ]. exists x'. split; [ split; [ exact X1 | now apply X2 ] | reflexivity ].
Qed.
Lemma ray_ray_sound : forall n l r, is_ray n l -> is_ray n r ->
  / 1000 < area2 (ray_dir r) (ray_dir l) -> exists x t, let q1 := rpoint (ray_origin l) (ray_dir l) t in let q2 := rpoint (ray_origin r) (ray_dir r) x in
  on_ray l q1 /\ on_ray r q2
  /\ ray_ray_sqdist (ray_lift l) (ray_lift r) = LD false (Some t) (Some (rdist2 q1 q2)) (Some x).
Proof.
  intros n l r HL HR HD. destruct (X_ray_ray n l r HL HR) as [_ A]. destruct (A HD) as (x' & t' & CH & E).
  destruct HR as [R1 [R2 R3]], HL as [S1 [S2 S3]].
  apply chosen_range in CH as [[X1 X2] T]. 2: { unfold area2 in HD. rewrite R3, S3 in HD. lra. } 2: { discriminate. }
  exists x', t'. split; [ now exists t' | ]. split; [ now exists x' | exact E ].
Qed.

(** ** Parallel directions *)
Lemma area2_0 : forall u v, length u = length v -> rdot v v = 1 -> area2 u v = 0 -> u = rscale (rdot u v) v.
Proof.
  intros u v L V A. unfold area2 in A. rewrite V in A.
  assert (Z : rdot (rsub u (rscale (rdot u v) v)) (rsub u (rscale (rdot u v) v)) = 0).
  { dots. rewrite V, (rdot_comm v u). lra. }
  apply rdot_zero in Z. rewrite rsub_length in Z by len. apply rsub_eq in Z; [ exact Z | len ].
Qed.
Lemma ray_ray_parallel : forall n l r, is_ray n l -> is_ray n r -> ray_dir l = ray_dir r ->
  ld_ok (ray_ray_sqdist (ray_lift l) (ray_lift r)) (on_ray l) (on_ray r)
    (rpoint (ray_origin l) (ray_dir l)) (rpoint (ray_origin r) (ray_dir r)).
Proof.
  intros n [o v] [p u] HL HR E. assert (X := X_ray_ray n _ _ HL HR). destruct HL as [L1 [L2 V]], HR as [L3 [L4 U]].
  cbn [ray_origin ray_dir] in *. subst u. cbv zeta in X. destruct X as [X _].
  rewrite X by (unfold area2; rewrite V; lra). set (w := rsub p o). assert (Lw : length w = n) by (unfold w; len). set (e := rdot w v).
  do 4 eexists. split; [ reflexivity | ]. cbn [ray_origin ray_dir].
  assert (F : forall s t, rdist2 (rpoint o v t) (rpoint p v s) = rdot w w - e * e + (e + s - t) * (e + s - t)).
  { intros s t. rewrite (f_expand p o v v n) by assumption. fold w. rewrite V, (rdot_comm v w). fold e. ring. }
  split; [ split; [ | split ] | ].
  - eexists. split; [ apply Rmax_l | reflexivity ].
  - eexists. split; [ apply Rmax_l | reflexivity ].
  - intros p' q' (t & T & ->) (s & S & ->). cbn [ray_origin ray_dir]. rewrite !F.
    replace (e + Rmax 0 (- e) - Rmax 0 e) with 0. 2: { unfold Rmax. destruct (Rle_dec 0 e), (Rle_dec 0 (- e)); lra. }
    assert (Q := Rle_0_sqr (e + s - t)). unfold Rsqr in Q. lra.
  - rewrite F. replace (e + Rmax 0 (- e) - Rmax 0 e) with 0. 2: { unfold Rmax. destruct (Rle_dec 0 e), (Rle_dec 0 (- e)); lra. }
    unfold rdist2. replace (rsub (rpoint o v e) p) with (rsub (rscale e v) w) by (unfold w; vext; ring).
    dots. rewrite V, (rdot_comm v w). fold e. ring.
Qed.
Lemma sqdist_X : forall a b, v_squared_distance (vS a) (vS b) = Some (rdist2 b a).
Proof. intros. rewrite X_squared_distance. now rewrite rdist2_sym. Qed.
Ltac zz := intros; match goal with |- ?a * ?a <= ?b * ?b => replace a with 0 by ring; rewrite Rmult_0_l; apply Rle_0_sqr end.
Lemma ray_seg_par : forall n r s, is_ray n r -> is_segment n s -> seg_start s <> seg_end s ->
  area2 (rsub (seg_end s) (seg_start s)) (ray_dir r) = 0 ->
  ld_ok (ray_seg_sqdist (ray_lift r) (seg_lift s)) (on_ray r) (on_seg s) (rpoint (ray_origin r) (ray_dir r)) (seg_at s).
Proof.
  intros n r s HR HS N A. destruct (X_ray_seg n r s HR HS) as [X _]. rewrite X by lra. clear X.
  destruct (X_seg_len s n HS N) as (u & L & SD & U & HL & ES & _).
  assert (AT : forall x, seg_at s x = rpoint (seg_start s) u x) by (intros x; now apply (seg_at_ok s n u L x)).
  assert (SG : forall p, on_seg s p <-> exists x, 0 <= x <= L /\ p = rpoint (seg_start s) u x).
  { intros p. unfold on_seg, on_segment. split.
    - intros (t & T & ->). exists (t * L). split; [ split; nra | ]. unfold rlerp. rewrite ES. unfold rpoint. now rewrite rscale_mul.
    - intros (x & T & ->). exists (x / L). split.
      + assert (I := Rinv_0_lt_compat L HL). assert (L * / L = 1) by (field; lra). unfold Rdiv. split; nra.
      + unfold rlerp. rewrite ES. unfold rpoint. rewrite rscale_mul. do 2 f_equal. field. lra. }
  destruct r as [o v], s as [p1 p2]. destruct HR as [L1 [L2 V]], HS as [L3 L4], U as [L5 U].
  unfold ray_seg_parallel. rewrite SD. unfold ray_lift, seg_lift. cbn [ray_origin ray_dir seg_start seg_end] in *.
  assert (KU : u = v \/ u = rneg v).
  { rewrite ES in A. assert (A' : area2 u v = 0).
    { unfold area2 in *. rewrite rdot_scale_l, !rdot_scale_r, !rdot_scale_l in A. assert (L * L * (rdot u u * rdot v v - rdot u v * rdot u v) = 0) by lra.
      assert (L * L <> 0) by nra. apply Rmult_integral in H. tauto. }
    assert (E := area2_0 u v ltac:(congruence) V A'). unfold area2 in A'. rewrite U, V in A'.
    assert (D : rdot u v = 1 \/ rdot u v = -1).
    { assert (Q : (rdot u v - 1) * (rdot u v + 1) = 0) by lra. apply Rmult_integral in Q as [Q|Q]; [ left | right ]; lra. }
    destruct D as [D|D]; rewrite D in E; [ left | right ]; rewrite E; vext; ring. }
  set (w := rsub p1 o). assert (Lw : length w = n) by (unfold w; len). set (e := rdot w v).
  set (sg := rdot u v). assert (SGN : u = rscale sg v /\ (sg = 1 \/ sg = -1)).
  { unfold sg. destruct KU as [-> | ->]; [ rewrite V | rewrite rdot_neg_l, V ]; (split; [ vext; ring | lra ]). } destruct SGN as [EU SS].
  assert (P2 : rdot (rsub p2 o) v = e + L * sg).
  { replace (rsub p2 o) with (radd w (rsub p2 p1)) by (unfold w; vext; ring). rewrite ES. dots. reflexivity. }
  assert (F : forall x t, rdist2 (rpoint o v t) (rpoint p1 u x) = rdot w w - e * e + (e + x * sg - t) * (e + x * sg - t)).
  { intros x t. rewrite (f_expand p1 o u v n) by congruence. fold w. fold sg. rewrite EU, !rdot_scale_l, rdot_scale_r, V, (rdot_comm v w). fold e. destruct SS as [-> | ->]; ring. }
  assert (OK : forall par t x d, 0 <= t -> 0 <= x <= L -> d = rdist2 (rpoint o v t) (rpoint p1 u x) ->
    (forall t' x', 0 <= t' -> 0 <= x' <= L -> (e + x * sg - t) * (e + x * sg - t) <= (e + x' * sg - t') * (e + x' * sg - t')) ->
    ld_ok (LD par (Some t) (Some d) (Some x)) (on_ray (Ray o v)) (on_seg (Seg p1 p2)) (rpoint o v) (seg_at (Seg p1 p2))).
  { intros par t x d T X D M. exists par, t, d, x. split; [ reflexivity | ]. rewrite AT. cbn [seg_start]. split; [ | exact D ].
    split; [ | split ].
    - exists t. split; [ exact T | reflexivity ].
    - apply SG. eauto.
    - intros p' q' (t' & T' & ->) Q. apply SG in Q as (x' & X' & ->). cbn [ray_origin ray_dir]. rewrite !F. specialize (M t' x' T' X'). lra. }
  destruct (X_projection o v p1 0) as (-> & _). destruct (X_projection o v p2 0) as (-> & _). rewrite P2. fold w e.
  destruct (X_projection o v p1 e) as (_ & -> & _). destruct (X_projection p1 u o 0) as (-> & _).
  rewrite !sqdist_X. change (cst 0 : XR) with (Some 0). cbn [o_lt o_sub XRops Xcmp X2].
  assert (RO : rdot (rsub o p1) u = - (e * sg)).
  { replace (rsub o p1) with (rneg w) by (unfold w; vext; ring). rewrite EU, rdot_neg_l, rdot_scale_r. fold e. ring. }
  assert (PE : p2 = rpoint p1 u L). { unfold rpoint. rewrite <- ES. vext; ring. }
  assert (PD : rdist2 p1 (rpoint o v e) = rdot w w - e * e).
  { rewrite rdist2_sym, <- (rpoint_0 p1 u) by congruence. rewrite F. ring. }
  assert (O1 : rdist2 p1 o = rdot w w - e * e + e * e).
  { rewrite rdist2_sym, <- (rpoint_0 p1 u), <- (rpoint_0 o v) by congruence. rewrite F. ring. }
  assert (O2 : rdist2 p2 o = rdot w w - e * e + (e + L * sg) * (e + L * sg)).
  { rewrite rdist2_sym, PE, <- (rpoint_0 o v) at 1 by congruence. rewrite F. ring. }
  destruct (Rlt_bool_spec e 0) as [E1|E1], (Rlt_bool_spec (e + L * sg) 0) as [E2|E2]; cbn [andb].
  - destruct (Rlt_bool_spec (e + L * sg) e) as [E3|E3].
    + assert (sg = -1) by (destruct SS as [S|S]; rewrite S in *; lra). rewrite H in *.
      apply OK; try lra. { rewrite O1, F. ring. } intros. nra.
    + assert (sg = 1) by (destruct SS as [S|S]; rewrite S in *; lra). rewrite H in *. replace (e + L * 1 - e) with L by ring.
      apply OK; try lra. { rewrite O2, F. ring. } intros. nra.
  - replace (Rlt_bool 0 e) with false by (symmetry; apply Rlt_bool_false; lra). cbn [andb].
    assert (sg = 1) by (destruct SS as [S|S]; rewrite S in *; lra). rewrite RO, H in *. apply OK; try lra. { rewrite PD, F. ring. } zz.
  - replace (Rlt_bool 0 (e + L * sg)) with false by (symmetry; apply Rlt_bool_false; lra). rewrite andb_false_r.
    assert (sg = -1) by (destruct SS as [S|S]; rewrite S in *; lra). rewrite RO, H in *. apply OK; try lra. { rewrite PD, F. ring. } zz.
  - destruct (Rlt_bool_spec 0 e) as [E3|E3], (Rlt_bool_spec 0 (e + L * sg)) as [E4|E4]; cbn [andb].
    + destruct (Rlt_bool_spec (e + L * sg) e) as [E5|E5].
      * assert (sg = -1) by (destruct SS as [S|S]; rewrite S in *; lra). rewrite H in *. replace (e - (e + L * -1)) with L by ring.
        apply OK; try lra. { rewrite PD, F. ring. } zz.
      * assert (sg = 1) by (destruct SS as [S|S]; rewrite S in *; lra). rewrite H in *.
        apply OK; try lra. { rewrite PD, F. ring. } zz.
    + rewrite RO. apply OK; try (destruct SS as [S|S]; rewrite S in *; lra). { rewrite PD, F. destruct SS as [S|S]; rewrite S in *; ring. }
      destruct SS as [S|S]; rewrite S in *; zz.
    + rewrite RO. apply OK; try (destruct SS as [S|S]; rewrite S in *; lra). { rewrite PD, F. destruct SS as [S|S]; rewrite S in *; ring. }
      destruct SS as [S|S]; rewrite S in *; zz.
    + exfalso. destruct SS as [S|S]; rewrite S in *; lra.
Qed.

(** ** Ray and line *)
Lemma X_ray_line : forall n r l, is_ray n r -> is_line n l ->
  let u := ray_dir r in let v := ln_dir l in let w := rsub (ray_origin r) (ln_point l) in
  let b := rdot u v in let d := rdot u w in let e := rdot v w in let D := area2 u v in
  (D <= / 1000 -> ray_line_sqdist (ray_lift r) (line_lift l)
     = LD true (Some 0) (Some (rdist2 (ln_point l) (rpoint (ray_origin r) u (- d)))) (Some e))
  /\ (/ 1000 < D -> ray_line_sqdist (ray_lift r) (line_lift l)
     = let s := Rmax ((b * e - d) / D) 0 in let t := (e - b * d) / D in
       LD false (Some s) (Some (rdist2 (rpoint (ray_origin r) u s) (rpoint (ln_point l) v t))) (Some t)).
Proof.
  intros n [o u] [p v] [L1 [L2 U]] [L3 [L4 V]]. cbn [ray_origin ray_dir ln_point ln_dir] in *. cbv zeta.
  set (w := rsub o p). assert (Lw : length w = n) by (unfold w; len).
  unfold ray_line_sqdist, ray_lift, line_lift. cbn [ray_origin ray_dir ln_point ln_dir]. rewrite !X_sub. fold w. rewrite !X_dot.
  unfold area2. rewrite U, V. set (b := rdot u v). set (d := rdot u w). set (e := rdot v w).
  cbv zeta. cbn [o_mul o_sub o_add XRops X2]. rewrite X_zero_test.
  assert (CS := cauchy_schwarz u v ltac:(congruence)). rewrite U, V in CS. fold b in CS. rewrite Rabs_pos_eq by lra.
  split; intros H.
  - rewrite Rle_bool_true by exact H. destruct (X_projection o u p 0) as (_ & _ & ->). destruct (X_projection p v o 0) as (-> & _).
    rewrite sqdist_X. change (cst 0 : XR) with (Some 0). fold w. rewrite (rdot_comm w v). fold e. do 4 f_equal.
    replace (rsub p o) with (rneg w) by (unfold w; vext; ring). rewrite rdot_neg_l, (rdot_comm w u). reflexivity.
  - rewrite Rle_bool_false by exact H. rewrite !X_div by lra. change (cst 0 : XR) with (Some 0). rewrite X_max2, !X_scale_l, !X_add, X_sub, X_squared_length.
    unfold rdist2, rpoint. replace (b * e - 1 * d) with (b * e - d) by ring. replace (1 * e - b * d) with (e - b * d) by ring. reflexivity.
Qed.
Lemma ray_line_min : forall n r l s t, is_ray n r -> is_line n l ->
  let q1 := rpoint (ray_origin r) (ray_dir r) s in let q2 := rpoint (ln_point l) (ln_dir l) t in
  / 1000 < area2 (ray_dir r) (ln_dir l) -> 0 <= s -> closest (on_line (ray_line r)) (on_line l) q1 q2 ->
  closest (on_ray r) (on_line l) q1 q2
  /\ ray_line_sqdist (ray_lift r) (line_lift l) = LD false (Some s) (Some (rdist2 q1 q2)) (Some t)
  /\ ray_line_dist (ray_lift r) (line_lift l) = LD false (Some s) (Some (rdist q1 q2)) (Some t).
Proof.
  intros n r l s t HR HL q1 q2 HD S (C1 & C2 & C3).
  destruct (X_ray_line n r l HR HL) as [_ A]. specialize (A HD). cbv zeta in A.
  destruct r as [o u], l as [p v], HR as [L1 [L2 U]], HL as [L3 [L4 V]]. unfold ray_line in *. cbn [ray_origin ray_dir ln_point ln_dir] in *.
  set (w := rsub o p) in *. set (b := rdot u v) in *. set (d := rdot u w) in *. set (e := rdot v w) in *.
  assert (ED : area2 u v = 1 - b * b) by (unfold area2; rewrite U, V; fold b; ring). rewrite ED in A, HD.
  destruct (unique_min o p u v n L1 L3 L2 L4 V (fun _ => True) s t ((b * e - d) / (1 - b * b)) ((e - b * d) / (1 - b * b))) as [E1 E2]; auto.
  - rewrite U. fold b. lra.
  - intros x y _. rewrite rdist2_sym, (rdist2_sym (rpoint p v y)). apply C3; eexists; reflexivity.
  - intros x y _. apply (kkt o p u v n L1 L3 L2 L4 V); fold w; rewrite ?U; fold b d e; right; field; lra.
  - rewrite <- E1, <- E2, Rmax_left in A by exact S.
    split; [ | split; [ exact A | ] ].
    + split; [ now exists s | ]. split; [ now exists t | ]. intros p' q' HP HQ. apply C3; [ | exact HQ ]. now apply (ray_on_line (Ray o u)).
    + unfold ray_line_dist, ld_sqrt. rewrite A. cbn [ld_parallel ld_position1 ld_distance ld_position2]. rewrite X_sqrt by apply rdot_nonneg. reflexivity.
Qed.
Lemma ray_line_sound : forall n r l, is_ray n r -> is_line n l -> / 1000 < area2 (ray_dir r) (ln_dir l) ->
  exists s t, let q1 := rpoint (ray_origin r) (ray_dir r) s in let q2 := rpoint (ln_point l) (ln_dir l) t in
  on_ray r q1 /\ on_line l q2 /\ ray_line_sqdist (ray_lift r) (line_lift l) = LD false (Some s) (Some (rdist2 q1 q2)) (Some t).
Proof.
  intros n r l HR HL HD. destruct (X_ray_line n r l HR HL) as [_ A]. specialize (A HD). cbv zeta in A.
  do 2 eexists. split; [ eexists; split; [ apply Rmax_r | reflexivity ] | ]. split; [ eexists; reflexivity | ]. exact A.
Qed.
Lemma ray_line_par : forall n r l, is_ray n r -> is_line n l -> area2 (ray_dir r) (ln_dir l) = 0 ->
  ld_ok (ray_line_sqdist (ray_lift r) (line_lift l)) (on_ray r) (on_line l) (rpoint (ray_origin r) (ray_dir r)) (rpoint (ln_point l) (ln_dir l)).
Proof.
  intros n r l HR HL HD. destruct (X_ray_line n r l HR HL) as [A _]. rewrite A by lra. clear A.
  destruct r as [o u], l as [p v], HR as [L1 [L2 U]], HL as [L3 [L4 V]]. cbn [ray_origin ray_dir ln_point ln_dir] in *.
  set (w := rsub o p) in *. assert (Lw : length w = n) by (unfold w; len). set (d := rdot u w) in *. set (e := rdot v w) in *.
  assert (EU := area2_0 u v ltac:(congruence) V HD). set (b := rdot u v) in *.
  assert (B : b * b = 1). { unfold area2 in HD. rewrite U, V in HD. fold b in HD. lra. }
  assert (DE : d = b * e) by (unfold d; rewrite EU, rdot_scale_l; reflexivity).
  do 4 eexists. split; [ reflexivity | ]. split; [ split; [ | split ] | ].
  - exists 0. split; [ lra | reflexivity ].
  - eexists; reflexivity.
  - intros p' q' (s & S & ->) (t & ->). cbn [ray_origin ray_dir ln_point ln_dir]. rewrite rdist2_sym, (rdist2_sym (rpoint o u s)).
    apply (kkt o p u v n L1 L3 L2 L4 V); fold w; rewrite ?U; fold b d e; right; rewrite ?DE; ring.
  - rewrite (rdist2_sym (rpoint o u 0)). rewrite (f_expand o p u v n) by assumption. fold w. rewrite U. fold b d e.
    rewrite <- (rpoint_0 p v) at 1 by congruence. rewrite (f_expand o p u v n) by assumption. fold w. rewrite U. fold b d e.
    rewrite DE. nra.
Qed.

(** ** What is not the distance *)
Ltac onn := unfold on_ray, on_line, on_seg, on_segment; cbn [ray_origin ray_dir ln_point ln_dir seg_start seg_end].
Ltac unitv := unfold is_ray, is_line, is_segment, unit_vec; cbn [ray_origin ray_dir ln_point ln_dir seg_start seg_end]; 
  repeat split; try reflexivity; unfold rdot, zip; simpl; lra.
Lemma ray_line_refuted : exists r l, is_ray 3 r /\ is_line 3 l /\ / 1000 < area2 (ray_dir r) (ln_dir l)
  /\ exists s d t p q, ray_line_sqdist (ray_lift r) (line_lift l) = LD false (Some s) (Some d) (Some t)
     /\ on_ray r p /\ on_line l q /\ rdist2 p q < d.
Proof.
  set (r := Ray [0; 0; 0] [1; 0; 0]). set (l := Ln [-5; 0; 1] [3 / 5; 4 / 5; 0]). exists r, l.
  assert (HR : is_ray 3 r) by unitv. assert (HL : is_line 3 l) by unitv.
  assert (HD : / 1000 < area2 (ray_dir r) (ln_dir l)) by (unfold area2, rdot; simpl; lra).
  split; [ exact HR | ]. split; [ exact HL | ]. split; [ exact HD | ].
  destruct (X_ray_line 3 r l HR HL) as [_ A]. specialize (A HD). cbv zeta in A. rewrite A.
  do 3 eexists. exists [0; 0; 0], [-16 / 5; 12 / 5; 1]. split; [ reflexivity | ]. split; [ | split ].
  - exists 0. split; [ lra | ]. unfold r, rpoint, rsub, radd, rscale, zip; simpl; repeat (apply f_equal2; [ lra | ]); reflexivity.
  - exists 3. unfold l, rpoint, rsub, radd, rscale, zip; simpl; repeat (apply f_equal2; [ lra | ]); reflexivity.
  - replace (area2 (ray_dir r) (ln_dir l)) with (16 / 25) by (unfold area2, rdot, r, l; simpl; lra).
    replace (rdot (ray_dir r) (ln_dir l)) with (3 / 5) by (unfold rdot; simpl; lra).
    replace (rdot (ln_dir l) (rsub (ray_origin r) (ln_point l))) with 3 by (unfold rdot, rsub; simpl; lra).
    replace (rdot (ray_dir r) (rsub (ray_origin r) (ln_point l))) with 5 by (unfold rdot, rsub; simpl; lra).
    rewrite Rmax_right by lra. unfold rdist2, rdot, rpoint, r, l, rsub, radd, rscale. simpl. lra.
Qed.
Lemma snap_0 : snap 0 (0 / 1) = 0.
Proof. unfold snap. destruct (Rle_dec _ _); lra. Qed.
Lemma ray_ray_refuted : exists l r, is_ray 3 l /\ is_ray 3 r /\ / 1000 < area2 (ray_dir r) (ray_dir l)
  /\ exists s d t p q, ray_ray_sqdist (ray_lift l) (ray_lift r) = LD false (Some s) (Some d) (Some t)
     /\ on_ray l p /\ on_ray r q /\ rdist2 p q < d.
Proof.
  set (l := Ray [0; 0; 0] [1; 0; 0]). set (r := Ray [-5; 0; 1] [3 / 5; 4 / 5; 0]). exists l, r.
  assert (HR : is_ray 3 r) by unitv. assert (HL : is_ray 3 l) by unitv.
  assert (HD : / 1000 < area2 (ray_dir r) (ray_dir l)) by (unfold area2, rdot; simpl; lra).
  split; [ exact HL | ]. split; [ exact HR | ]. split; [ exact HD | ].
  destruct (X_ray_ray 3 l r HL HR) as [_ A]. destruct (A HD) as (x & t & C & E). rewrite E. clear A E HD HL HR.
  do 3 eexists. exists [0; 0; 0], [-16 / 5; 12 / 5; 1]. split; [ reflexivity | ]. split; [ | split ].
  - exists 0. split; [ lra | ]. unfold l, rpoint, rsub, radd, rscale, zip; simpl; repeat (apply f_equal2; [ lra | ]); reflexivity.
  - exists 3. split; [ lra | ]. unfold r, rpoint, rsub, radd, rscale, zip; simpl; repeat (apply f_equal2; [ lra | ]); reflexivity.
  - assert (XT : x = 0 /\ t = 0).
    { destruct C as (sN & tN & tD & -> & -> & C). unfold rdot, l, r, rsub in C. simpl in C. unfold rdot, l, r, rsub. simpl.
      destruct C as [(C1 & _)|[(m & C1 & _)|(_ & _ & -> & -> & ->)]]; [ exfalso; lra | discriminate | ]. split.
      - unfold snap. destruct (Rle_dec _ _) as [Q|Q]; [ reflexivity | ]. lra.
      - apply Rmax_right. unfold snap. destruct (Rle_dec _ _) as [Q|Q]; lra. }
    destruct XT as [-> ->]. unfold rdist2, rdot, rpoint, r, l, rsub, radd, rscale. simpl. lra.
Qed.
(** Opposite directions: *)
Lemma ray_ray_opposite_refuted : exists l r, is_ray 3 l /\ is_ray 3 r /\ ray_dir r = rneg (ray_dir l)
  /\ exists s t, ray_ray_sqdist (ray_lift l) (ray_lift r) = LD true (Some s) (Some 0) (Some t)
     /\ forall p q, on_ray l p -> on_ray r q -> 25 <= rdist2 p q.
Proof.
  set (l := Ray [0; 0; 0] [1; 0; 0]). set (r := Ray [-5; 0; 0] [-1; 0; 0]). exists l, r.
  assert (HR : is_ray 3 r) by unitv. assert (HL : is_ray 3 l) by unitv.
  split; [ exact HL | ]. split; [ exact HR | ]. split. { unfold rneg, l, r. simpl. repeat (apply f_equal2; [ lra | ]); reflexivity. }
  destruct (X_ray_ray 3 l r HL HR) as [A _]. rewrite A. 2: { unfold area2, rdot. simpl. lra. }
  do 2 eexists. split.
  - f_equal. f_equal. unfold rdist2, rdot, rpoint, r, l, rsub, radd, rscale. simpl. lra.
  - intros p q (s & S & ->) (t & T & ->). unfold rdist2, rdot, rpoint, r, l, rsub, radd, rscale. simpl. nra.
Qed.
Lemma ray_seg_refuted : exists r s, is_ray 3 r /\ is_segment 3 s /\ / 1000 < area2 (rsub (seg_end s) (seg_start s)) (ray_dir r)
  /\ exists x d t p q, ray_seg_sqdist (ray_lift r) (seg_lift s) = LD false (Some x) (Some d) (Some t)
     /\ on_ray r p /\ on_seg s q /\ rdist2 p q < d.
Proof.
  set (r := Ray [0; 0; 0] [1; 0; 0]). set (s := Seg [-5; 0; 1] [1; 8; 1]). exists r, s.
  assert (HR : is_ray 3 r) by unitv. assert (HS : is_segment 3 s) by (split; reflexivity).
  assert (HD : / 1000 < area2 (rsub (seg_end s) (seg_start s)) (ray_dir r)) by (unfold area2, rdot, rsub; simpl; lra).
  split; [ exact HR | ]. split; [ exact HS | ]. split; [ exact HD | ].
  destruct (X_ray_seg 3 r s HR HS) as [_ A]. destruct (A HD) as (x & t & C & E). rewrite E. clear A E HD HS HR.
  do 3 eexists. exists [0; 0; 0], [-16 / 5; 12 / 5; 1]. split; [ reflexivity | ]. split; [ | split ].
  - exists 0. split; [ lra | ]. unfold r, rpoint, rsub, radd, rscale, zip; simpl; repeat (apply f_equal2; [ lra | ]); reflexivity.
  - exists (3 / 10). split; [ lra | ]. unfold s, rlerp, rpoint, rsub, radd, rscale, zip; simpl; repeat (apply f_equal2; [ lra | ]); reflexivity.
  - assert (XT : x = 0 /\ t = 0).
    { destruct C as (sN & tN & tD & -> & -> & C). unfold rdot, s, r, rsub in C. simpl in C. unfold rdot, s, r, rsub. simpl.
      destruct C as [(C1 & _)|[(m & C1 & C2 & _)|(_ & _ & -> & -> & ->)]]; [ exfalso; lra | exfalso; injection C1 as <-; lra | ]. split.
      - unfold snap. destruct (Rle_dec _ _) as [Q|Q]; [ reflexivity | ]. lra.
      - apply Rmax_right. unfold snap. destruct (Rle_dec _ _) as [Q|Q]; lra. }
    destruct XT as [-> ->]. unfold rdist2, rdot, rpoint, r, s, rsub, radd, rscale. simpl. lra.
Qed.
(** A short segment counts as parallel to everything; this one touches the ray. *)
Lemma ray_short_seg_refuted : exists r s p, is_ray 3 r /\ is_segment 3 s
  /\ rdot (rsub (seg_end s) (seg_start s)) (ray_dir r) = 0 /\ seg_start s <> seg_end s
  /\ on_ray r p /\ on_seg s p
  /\ exists x d t, ray_seg_sqdist (ray_lift r) (seg_lift s) = LD true (Some x) (Some d) (Some t) /\ d > 0.
Proof.
  set (r := Ray [0; 0; 0] [1; 0; 0]). set (s := Seg [1; -3 / 100; 0] [1; 0; 0]). exists r, s, [1; 0; 0].
  assert (HR : is_ray 3 r) by unitv. assert (HS : is_segment 3 s) by (split; reflexivity).
  split; [ exact HR | ]. split; [ exact HS | ]. split. { unfold rdot, rsub. simpl. lra. } split. { intros E. injection E as E. lra. }
  split. { exists 1. split; [ lra | ]. unfold r, rpoint, rsub, radd, rscale, zip; simpl; repeat (apply f_equal2; [ lra | ]); reflexivity. }
  split. { exists 1. split; [ lra | ]. unfold s, rlerp, rpoint, rsub, radd, rscale, zip; simpl; repeat (apply f_equal2; [ lra | ]); reflexivity. }
  destruct (X_ray_seg 3 r s HR HS) as [A _]. rewrite A. 2: { unfold area2, rdot, rsub. simpl. lra. }
  unfold ray_seg_parallel, r, s, ray_lift, seg_lift. cbn [seg_start seg_end ray_origin ray_dir].
  destruct (X_projection [0; 0; 0] [1; 0; 0] [1; -3 / 100; 0] 0) as (-> & _). destruct (X_projection [0; 0; 0] [1; 0; 0] [1; 0; 0] 0) as (-> & _).
  match goal with |- context [al_point_at_distance _ _ (Some ?e)] => destruct (X_projection [0; 0; 0] [1; 0; 0] [1; 0; 0] e) as (_ & -> & _) end.
  change (cst 0 : XR) with (Some 0). cbn [o_lt XRops Xcmp].
  assert (E1 : rdot (rsub [1; -3 / 100; 0] [0; 0; 0]) [1; 0; 0] = 1) by (unfold rdot, rsub; simpl; lra).
  assert (E2 : rdot (rsub [1; 0; 0] [0; 0; 0]) [1; 0; 0] = 1) by (unfold rdot, rsub; simpl; lra). rewrite E1, E2.
  rewrite (Rlt_bool_false 1 0), (Rlt_bool_true 0 1), (Rlt_bool_false 1 1) by lra. cbn [andb].
  do 3 eexists. rewrite sqdist_X. split; [ reflexivity | ]. unfold rdist2, rdot, rpoint, rsub, radd, rscale. simpl. lra.
Qed.
