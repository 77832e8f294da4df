(** Distances of objects that are not parallel, whatever the ray parameter: the nearest points of the line of the ray and the
    other object, with the ray parameter replaced by 0 if it is negative. *)
From Coq Require Import ZArith Reals List Bool Lia Lra Psatz.
From Flocq Require Import Core.
From Verif Require Import Ops M_scalar M_vec M_mat M_geom M_dist Inst_XR S_vec S_geom S_dist.
From Verif Require Import P_ord P_xr P_vec P_vec2 P_line P_seg P_dist.
Import ListNotations.
Local Open Scope R_scope.

Lemma snap_max : forall x y, 0 < y -> x <= 0 \/ / 1000 < x -> Rmax (snap x (x / y)) 0 = Rmax 0 (x / y).
Proof.
  intros x y Y H. assert (I := Rinv_0_lt_compat y Y). rewrite (Rmax_comm 0). unfold snap. destruct (Rle_dec _ _) as [L|L]; [|reflexivity]. destruct H as [H|H].
  - assert (Q : x / y <= 0) by (unfold Rdiv; nra). rewrite !Rmax_right; lra.
  - rewrite Rabs_pos_eq in L by lra. lra.
Qed.
Lemma chosen_clamped : forall p q u v n top s t,
  length p = n -> length q = n -> length u = n -> length v = n -> rdot v v = 1 ->
  let w := rsub p q in let D := area2 u v in
  / 1000 < D -> (forall m, top = Some m -> 0 < m) ->
  chosen top (rdot u u) (rdot u v) (rdot u w) (rdot v w) s t ->
  exists s0 t0, range top s0
    /\ (forall s' t', range top s' -> rdist2 (rpoint q v t0) (rpoint p u s0) <= rdist2 (rpoint q v t') (rpoint p u s'))
    /\ (s0 = 0 \/ / 1000 < s0 * D -> s = s0)
    /\ (t0 <= 0 \/ (/ 1000 < t0 /\ / 1000 < t0 * D) -> t = Rmax 0 t0).
Proof.
  intros p q u v n top s t Lp Lq Lu Lv Vv w D HD HT (sN & tN & tD & Es & Et & C).
  unfold area2 in D. assert (ED : D = rdot u u - rdot u v * rdot u v) by (unfold D; rewrite Vv; ring). clearbody D. rewrite <- ED in *.
  set (a := rdot u u) in *. set (b := rdot u v) in *. set (d := rdot u w) in *. set (e := rdot v w) in *.
  assert (DP : 0 < D) by lra.
  assert (K : forall cs ct, (forall s', range top s' -> 0 <= (d + a * cs - b * ct) * (s' - cs)) -> ct - e - b * cs = 0 ->
     forall s' t', range top s' -> rdist2 (rpoint q v ct) (rpoint p u cs) <= rdist2 (rpoint q v t') (rpoint p u s')).
  { intros cs ct G1 G2 x y Px. apply (kkt p q u v n Lp Lq Lu Lv Vv); fold w; fold a b d e.
      + now apply G1.
      + rewrite G2. lra. }
  assert (I := Rinv_0_lt_compat D DP).
  destruct C as [(C1 & -> & -> & ->)|[(m & Em & C1 & -> & -> & ->)|(C1 & C2 & -> & -> & ->)]].
  - exists 0, e. split; [|split; [|split]].
    + split; [lra|]. intros m Em. specialize (HT m Em). lra.
    + apply K; [|lra]. intros s' [S1 _]. nra.
    + intros _. rewrite Es, snap_num by lra. unfold Rdiv. ring.
    + intros H. rewrite Et, snap_max by lra. f_equal. lra.
  - assert (M := HT m Em). exists m, (e + b * m). split; [|split; [|split]].
    + split; [lra|]. intros m' Em'. rewrite Em in Em'. injection Em' as <-. lra.
    + apply K; [|lra]. intros s' [S1 S2]. specialize (S2 m Em). assert (G : d + a * m - b * (e + b * m) <= 0) by (replace (d + a * m - b * (e + b * m)) with (d - b * e + m * (a - b * b)) by ring; rewrite <- ED; lra). nra.
    + intros SS. assert (0 <= m * D) by nra. rewrite Es, snap_num; [field; lra|lra|lra|]. destruct SS as [SS|SS]; [lra|right; lra].
    + intros H. rewrite Et, snap_max by lra. f_equal. lra.
  - exists ((b * e - d) / D), ((a * e - b * d) / D).
    assert (E1 : (b * e - d) / D * D = b * e - d) by (field; lra). assert (E2 : (a * e - b * d) / D * D = a * e - b * d) by (field; lra).
    split; [|split; [|split]].
    + split. { unfold Rdiv. nra. } intros m Em. specialize (C2 m Em). apply Rmult_le_reg_r with D; lra.
    + apply K.
      * intros s' _. replace (d + a * ((b * e - d) / D) - b * ((a * e - b * d) / D)) with 0; [lra|]. rewrite ED. field. lra.
      * rewrite ED. field. lra.
    + intros SS. rewrite Es, snap_num; [reflexivity|lra|lra|]. rewrite E1 in SS. destruct SS as [SS|SS]; [left|right; lra].
      rewrite <- E1, SS. ring.
    + intros H. rewrite Et, snap_max; [reflexivity|lra|]. rewrite E2 in H. destruct H as [H|H]; [left|right; lra]. rewrite <- E2. nra.
Qed.
Lemma ray_seg_result : forall n r s, is_ray n r -> is_segment n s ->
  let u := rsub (seg_end s) (seg_start s) in let D := area2 u (ray_dir r) in / 1000 < D ->
  exists x t, let q1 k := rpoint (ray_origin r) (ray_dir r) k in let q2 := rlerp (seg_start s) (seg_end s) x in
    closest (on_line (ray_line r)) (on_seg s) (q1 t) q2
    /\ (x = 0 \/ / 1000 < x * D -> t <= 0 \/ (/ 1000 < t /\ / 1000 < t * D) ->
        let t' := Rmax 0 t in ray_seg_sqdist (ray_lift r) (seg_lift s) = LD false (Some t') (Some (rdist2 (q1 t') q2)) (Some (x * rnorm u))
          /\ ray_seg_dist (ray_lift r) (seg_lift s) = LD false (Some t') (Some (rdist (q1 t') q2)) (Some (x * rnorm u))).
Proof.
  intros n r s HR HS u D HD. destruct (X_ray_seg n r s HR HS) as [_ A]. destruct (A HD) as (x' & t' & CH & E). fold u in CH, E.
  destruct HR as [R1 [R2 R3]], HS as [S1 S2]. assert (Lu : length u = n) by (unfold u; len).
  destruct (chosen_clamped (seg_start s) (ray_origin r) u (ray_dir r) n (Some 1) x' t') as (x & t & [X1 X2] & MIN & EX & ET); auto.
  { intros m Em. injection Em as <-. lra. }
  specialize (X2 1 eq_refl). exists x, t. cbv zeta. split.
  - split; [now exists t|]. split; [exists x; split; [lra|reflexivity]|]. intros a b (t'' & ->) (x'' & X & ->). apply MIN. split; [lra|]. intros m Em. injection Em as <-. lra.
  - intros SX ST. rewrite (EX SX), (ET ST) in E. fold (rnorm u) in E.
    assert (E' : ray_seg_sqdist (ray_lift r) (seg_lift s)
      = LD false (Some (Rmax 0 t)) (Some (rdist2 (rpoint (ray_origin r) (ray_dir r) (Rmax 0 t)) (rlerp (seg_start s) (seg_end s) x))) (Some (x * rnorm u))) by exact E.
    split; [exact E'|]. unfold ray_seg_dist, ld_sqrt. rewrite E'. cbn [ld_parallel ld_position1 ld_distance ld_position2]. rewrite X_sqrt by apply rdot_nonneg. reflexivity.
Qed.
Lemma ray_ray_result : forall n l r, is_ray n l -> is_ray n r ->
  let D := area2 (ray_dir r) (ray_dir l) in / 1000 < D ->
  exists x t, let q1 k := rpoint (ray_origin l) (ray_dir l) k in let q2 := rpoint (ray_origin r) (ray_dir r) x in
    closest (on_line (ray_line l)) (on_ray r) (q1 t) q2
    /\ (x = 0 \/ / 1000 < x * D -> t <= 0 \/ (/ 1000 < t /\ / 1000 < t * D) ->
        let t' := Rmax 0 t in ray_ray_sqdist (ray_lift l) (ray_lift r) = LD false (Some t') (Some (rdist2 (q1 t') q2)) (Some x)
          /\ ray_ray_dist (ray_lift l) (ray_lift r) = LD false (Some t') (Some (rdist (q1 t') q2)) (Some x)).
Proof.
  intros n l r HL HR D HD. destruct (X_ray_ray n l r HL HR) as [_ A]. destruct (A HD) as (x' & t' & CH & E).
  destruct HR as [R1 [R2 R3]], HL as [S1 [S2 S3]].
  destruct (chosen_clamped (ray_origin r) (ray_origin l) (ray_dir r) (ray_dir l) n None x' t') as (x & t & [X1 X2] & MIN & EX & ET); auto.
  { discriminate. } { now rewrite R3. }
  exists x, t. cbv zeta. split.
  - split; [now exists t|]. split; [exists x; split; [lra|reflexivity]|]. intros a b (t'' & ->) (x'' & X & ->). apply MIN. split; [lra|]. discriminate.
  - intros SX ST. rewrite (EX SX), (ET ST) in E. 
    assert (E' : ray_ray_sqdist (ray_lift l) (ray_lift r)
      = LD false (Some (Rmax 0 t)) (Some (rdist2 (rpoint (ray_origin l) (ray_dir l) (Rmax 0 t)) (rpoint (ray_origin r) (ray_dir r) x))) (Some x)) by exact E.
    split; [exact E'|]. unfold ray_ray_dist, ld_sqrt. rewrite E'. cbn [ld_parallel ld_position1 ld_distance ld_position2]. rewrite X_sqrt by apply rdot_nonneg. reflexivity.
Qed.
Lemma ray_line_result : forall n r l, is_ray n r -> is_line n l -> / 1000 < area2 (ray_dir r) (ln_dir l) ->
  exists s t, let q1 k := rpoint (ray_origin r) (ray_dir r) k in let q2 := rpoint (ln_point l) (ln_dir l) t in
    closest (on_line (ray_line r)) (on_line l) (q1 s) q2
    /\ let s' := Rmax 0 s in ray_line_sqdist (ray_lift r) (line_lift l) = LD false (Some s') (Some (rdist2 (q1 s') q2)) (Some t)
       /\ ray_line_dist (ray_lift r) (line_lift l) = LD false (Some s') (Some (rdist (q1 s') q2)) (Some t).
Proof.
  intros n r l HR HL HD. destruct (X_ray_line n r l HR HL) as [_ A]. specialize (A HD). cbv zeta in A.
  destruct r as [o u], l as [p v], HR as [L1 [L2 U]], HL as [L3 [L4 V]]. unfold ray_line in *. cbn [ray_origin ray_dir ln_point ln_dir] in *.
  set (w := rsub o p) in *. set (b := rdot u v) in *. set (d := rdot u w) in *. set (e := rdot v w) in *.
  assert (ED : area2 u v = 1 - b * b) by (unfold area2; rewrite U, V; fold b; ring). rewrite ED in A, HD.
  exists ((b * e - d) / (1 - b * b)), ((e - b * d) / (1 - b * b)). split.
  - split; [eexists; reflexivity|]. split; [eexists; reflexivity|]. intros p' q' (x & ->) (y & ->). cbn [ln_point ln_dir].
    rewrite rdist2_sym, (rdist2_sym (rpoint o u x)).
    apply (kkt o p u v n L1 L3 L2 L4 V); fold w; rewrite ?U; fold b d e; right; field; lra.
  - rewrite Rmax_comm in A. split; [exact A|]. unfold ray_line_dist, ld_sqrt. rewrite A. cbn [ld_parallel ld_position1 ld_distance ld_position2].
    rewrite X_sqrt by apply rdot_nonneg. reflexivity.
Qed.
