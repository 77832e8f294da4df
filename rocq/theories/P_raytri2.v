(** Cases of the intersection of rays and triangles in double precision (C114). *)
From Coq Require Import ZArith Reals List Lia Lra Bool Psatz.
From Flocq Require Import Core BinarySingleNaN.
From Verif Require Import Ops M_scalar M_vec M_geom M_intersect Inst_F S_vec S_rnd S_intersect S_hit S_raybox S_tbox S_raytri P_ieee P_vec P_fp P_fp3 P_fp4 P_fp5 P_hit P_hit2 P_hit4 P_ft P_tbox P_raybox P_raybox3 P_sphere2 P_raytri.
Import ListNotations.
Local Open Scope R_scope.

(** From (2, 9, 3) in the direction (-5, -17, -12), the ray meets the plane z = 0 at (3/4, 19/4, 0). *)
Definition rt_from : list double := [cst 2; cst 9; cst 3].
Definition rt_dir : list double := v_normalize [cst (-5); cst (-17); cst (-12)].
Lemma rt_unit : nearly_unit rt_dir.
Proof.
  destruct (vals3 (-5) (-17) (-12) ltac:(lia) ltac:(lia) ltac:(lia)) as [F V].
  assert (Mo : moderate 1024 (values [cst (-5) : double; cst (-17); cst (-12)])).
  { rewrite V. unfold moderate, rnorm. assert (G : 1 <= sqrt (rdot [-5; -17; -12] [-5; -17; -12]) <= 30).
    { split; [rewrite <- sqrt_1 at 1|rewrite <- (sqrt_square 30) by lra]; apply sqrt_le_1_alt; cbn [rdot]; lra. } split.
    - apply Rle_trans with (bpow radix2 0); [apply bpow_le; vm_compute; discriminate|exact (proj1 G)].
    - apply Rle_trans with 30; [exact (proj2 G)|]. apply Rle_trans with (bpow radix2 5); [cbn; lra|apply bpow_le; vm_compute; discriminate]. }
  split; [reflexivity|]. assert (C := normalize_ok 53 1024 _ F (few_double 3 ltac:(lia)) Mo). split.
  - exact (all_fin _ _ _ _ C).
  - eapply Rle_trans; [exact (normalize_norm 53 1024 _ F (few_double 3 ltac:(lia)) Mo)|]. destruct u_double as [U0 _]. simpl. lra.
Qed.
Definition lit0 : double := @B754_finite 53 1024 true 8417575624929260 (-55) eq_refl.
Definition lit1 : double := @B754_finite 53 1024 true 7154939281189871 (-53) eq_refl.
Definition lit2 : double := @B754_finite 53 1024 true 5050545374957556 (-53) eq_refl.
Lemma rt_check : (o_eq (nth 0 rt_dir (cst 0)) lit0 && o_eq (nth 1 rt_dir (cst 0)) lit1 && o_eq (nth 2 rt_dir (cst 0)) lit2)%bool = true.
Proof. vm_cast_no_check (eq_refl true). Qed.
Definition rt_k : R := 420878781246463 / 9007199254740992.
Lemma lit_values : B2R lit0 = -5 * rt_k /\ B2R lit1 = -17 * rt_k /\ B2R lit2 = -12 * rt_k.
Proof. unfold rt_k, lit0, lit1, lit2. cbn [B2R]. unfold F2R. cbn [Fnum Fexp cond_Zopp Z.opp]. change (bpow radix2 (-55)) with (/ 36028797018963968). change (bpow radix2 (-53)) with (/ 9007199254740992). repeat split; lra. Qed.
Lemma rt_generic : forall d : list double, nearly_unit d -> (o_eq (nth 0 d (cst 0)) lit0 && o_eq (nth 1 d (cst 0)) lit1 && o_eq (nth 2 d (cst 0)) lit2)%bool = true -> values d = [-5 * rt_k; -17 * rt_k; -12 * rt_k].
Proof.
  intros d (L & F & _) H. destruct d as [|x [|y [|z [|]]]]; try discriminate L. cbn [nth] in H. apply andb_prop in H as [H H3]. apply andb_prop in H as [H1 H2].
  inversion F as [|? ? Fx F']; subst. inversion F' as [|? ? Fy F'']; subst. inversion F'' as [|? ? Fz _]; subst. destruct lit_values as (V0 & V1 & V2).
  assert (E1 := eq_values x lit0 Fx eq_refl H1). assert (E2 := eq_values y lit1 Fy eq_refl H2). assert (E3 := eq_values z lit2 Fz eq_refl H3). unfold values. cbn [map].
  exact (f_equal2 cons (eq_trans E1 V0) (f_equal2 cons (eq_trans E2 V1) (f_equal2 cons (eq_trans E3 V2) eq_refl))).
Qed.
Lemma rt_values : values rt_dir = [-5 * rt_k; -17 * rt_k; -12 * rt_k].
Proof. exact (rt_generic rt_dir rt_unit rt_check). Qed.
(** The triangles share the edge from (4, 9, 0) to (-9, -8, 0). *)
Definition rt_a : list double := [cst 4; cst 9; cst 0].
Definition rt_b : list double := [cst (-9); cst (-8); cst 0].
Definition rt_c : list double := [cst (-8); cst 9; cst 0].
Definition rt_e : list double := [cst 9; cst (-8); cst 0].
Lemma rt_miss : (BinarySingleNaN.is_nan (intersect_ray_triangle (Ray rt_from rt_dir) rt_c rt_a rt_b) && BinarySingleNaN.is_nan (intersect_ray_triangle (Ray rt_from rt_dir) rt_b rt_e rt_a))%bool = true.
Proof. vm_cast_no_check (eq_refl true). Qed.
Ltac v3 x y z := rewrite (proj2 (vals3 x y z ltac:(lia) ltac:(lia) ltac:(lia))).
Lemma rt_point : ray_at (ray_values (Ray rt_from rt_dir)) (/ 4 / rt_k) = [3 / 4; 19 / 4; 0].
Proof.
  unfold ray_at, ray_values, rpoint. cbn [ray_origin ray_dir]. rewrite rt_values. unfold rt_from. v3 2%Z 9%Z 3%Z. assert (K : rt_k <> 0) by (unfold rt_k; lra). generalize dependent rt_k. intros k K. unfold radd, rscale. cbn [map zip]. repeat (apply f_equal2; [field; exact K|]). reflexivity.
Qed.
Lemma edge_leak : exists (o d a b c e : list double) t, within 16 o /\ nearly_unit d /\ within 16 a /\ within 16 b /\ within 16 c /\ within 16 e /\ 0 <= t
  /\ in_triangle (values c) (values a) (values b) (ray_at (ray_values (Ray o d)) t) /\ in_triangle (values b) (values e) (values a) (ray_at (ray_values (Ray o d)) t)
  /\ BinarySingleNaN.is_nan (intersect_ray_triangle (Ray o d) c a b) = true /\ BinarySingleNaN.is_nan (intersect_ray_triangle (Ray o d) b e a) = true.
Proof.
  exists rt_from, rt_dir, rt_a, rt_b, rt_c, rt_e, (/ 4 / rt_k). split; [apply sized3; try lia; absz|]. split; [exact rt_unit|]. do 4 (split; [apply sized3; try lia; absz|]).
  split; [apply Rlt_le, Rdiv_lt_0_compat; [lra|unfold rt_k; lra]|]. rewrite rt_point. unfold rt_a, rt_b, rt_c, rt_e. v3 4%Z 9%Z 0%Z. v3 (-9)%Z (-8)%Z 0%Z. v3 (-8)%Z 9%Z 0%Z. v3 9%Z (-8)%Z 0%Z.
  split; [exists (3 / 4), (/ 4); repeat (split; [lra|])|split; [exists 0, (3 / 4); repeat (split; [lra|])|]]; try (unfold radd, rsub, rscale; cbn [map zip]; repeat (apply f_equal2; [lra|]); reflexivity).
  exact (andb_prop _ _ rt_miss).
Qed.
(** The same ray meets the triangle (-8, 0, 0), (9, 0, 0), (0, 16, 0) inside. *)
Definition rt_p : list double := [cst (-8); cst 0; cst 0].
Definition rt_q : list double := [cst 9; cst 0; cst 0].
Definition rt_r : list double := [cst 0; cst 16; cst 0].
Lemma rt_sizes : within 16 rt_from /\ nearly_unit rt_dir /\ within 16 rt_p /\ within 16 rt_q /\ within 16 rt_r /\ 1 <= 16 /\ 100000 * (16 * 16 * 16) <= bpow radix2 1024.
Proof.
  split; [apply sized3; try lia; absz|]. split; [exact rt_unit|]. do 3 (split; [apply sized3; try lia; absz|]). split; [lra|]. apply Rle_trans with (bpow radix2 30); [cbn; lra|apply bpow_le; lia].
Qed.
Lemma rt_placement : placement (Ray rt_from rt_dir) rt_p rt_q rt_r = 12 * 272 * rt_k.
Proof.
  unfold placement. cbn [ray_dir]. rewrite rt_values. unfold rt_p, rt_q, rt_r. v3 (-8)%Z 0%Z 0%Z. v3 9%Z 0%Z 0%Z. v3 0%Z 16%Z 0%Z. assert (K : 0 < rt_k) by (unfold rt_k; lra). generalize dependent rt_k. intros k K. unfold rsub. cbn [map zip rcross rdot]. 
  match goal with |- Rabs ?x = _ => replace x with (12 * 272 * k) by ring end. apply Rabs_pos_eq. lra.
Qed.
Lemma rt_case : let r := Ray rt_from rt_dir in let c := placement r rt_p rt_q rt_r in let u := unit_roundoff 53 in exists t, in_triangle_by (/ 8) (values rt_p) (values rt_q) (values rt_r) (ray_at (ray_values r) t)
  /\ / 900 + 217 * (u * (16 * 16)) <= c /\ 1500 * (u * (16 * 16)) <= / 8 * c /\ 600 * (u * (16 * 16 * 16)) <= t * c.
Proof.
  cbv zeta. rewrite rt_placement. exists (/ 4 / rt_k). rewrite rt_point. assert (U : unit_roundoff 53 <= / 1000000000). { unfold unit_roundoff. cbn. lra. }
  assert (T : / 4 / rt_k * (12 * 272 * rt_k) = 816). { assert (K : rt_k <> 0) by (unfold rt_k; lra). generalize dependent rt_k. intros k K. field. exact K. } rewrite T. unfold rt_k. split; [|split; [lra|split; lra]].
  unfold rt_p, rt_q, rt_r. v3 (-8)%Z 0%Z 0%Z. v3 9%Z 0%Z 0%Z. v3 0%Z 16%Z 0%Z. exists ((35 / 4 - 8 * (19 / 64)) / 17), (19 / 64). split; [lra|]. split; [lra|]. split; [lra|]. unfold radd, rsub, rscale. cbn [map zip]. repeat (apply f_equal2; [lra|]). reflexivity.
Qed.
Lemma rt_hit : is_finite (intersect_ray_triangle (Ray rt_from rt_dir) rt_p rt_q rt_r) = true.
Proof. vm_cast_no_check (eq_refl true). Qed.
