(** Cases of the intersection of two planes in double precision (C115). *)
From Coq Require Import ZArith Reals List Lia Lra Bool Psatz.
From Flocq Require Import Core BinarySingleNaN.
From Verif Require Import Ops M_scalar M_vec M_geom M_intersect Inst_F S_vec S_rnd S_hit S_planes P_ieee P_vec P_fp P_fp3 P_fp4 P_fp5 P_hit P_hit2 P_hit4 P_ft P_ft2 P_raybox3 P_raytri2.
Import ListNotations.
Local Open Scope R_scope.

(** Normalized vectors of integers *)
Lemma int_unit : forall x y z, (Z.abs x <= 2 ^ 40)%Z -> (Z.abs y <= 2 ^ 40)%Z -> (Z.abs z <= 2 ^ 40)%Z -> (1 <= x * x + y * y + z * z)%Z -> nearly_unit (v_normalize [cst x : double; cst y; cst z]).
Proof.
  intros x y z Hx Hy Hz H. destruct (vals3 x y z ltac:(lia) ltac:(lia) ltac:(lia)) as [F V].
  assert (Mo : moderate 1024 (values [cst x : double; cst y; cst z])).
  { rewrite V. unfold moderate, rnorm. assert (Q : rdot [IZR x; IZR y; IZR z] [IZR x; IZR y; IZR z] = IZR (x * x + y * y + z * z)) by (rewrite !plus_IZR, !mult_IZR; cbn [rdot]; ring). rewrite Q.
    assert (G : 1 <= sqrt (IZR (x * x + y * y + z * z)) <= IZR (2 ^ 41)).
    { split; [rewrite <- sqrt_1 at 1|rewrite <- (sqrt_square (IZR (2 ^ 41))) by (apply IZR_le; lia)]; apply sqrt_le_1_alt; [apply IZR_le; lia|]. rewrite <- mult_IZR. apply IZR_le. assert (B : forall t, (Z.abs t <= 2 ^ 40)%Z -> (t * t <= 2 ^ 80)%Z) by (intros t Ht; change (2 ^ 80)%Z with (2 ^ 40 * 2 ^ 40)%Z; nia). apply B in Hx, Hy, Hz. change (2 ^ 41 * 2 ^ 41)%Z with (4 * 2 ^ 80)%Z. lia. } split.
    - apply Rle_trans with (bpow radix2 0); [apply bpow_le; vm_compute; discriminate|exact (proj1 G)].
    - apply Rle_trans with (1 := proj2 G). change (IZR (2 ^ 41)) with (bpow radix2 41). apply bpow_le. vm_compute. discriminate. }
  split; [reflexivity|]. assert (C := normalize_ok 53 1024 _ F (few_double 3 ltac:(lia)) Mo). split.
  - exact (all_fin _ _ _ _ C).
  - eapply Rle_trans; [exact (normalize_norm 53 1024 _ F (few_double 3 ltac:(lia)) Mo)|]. destruct u_double as [U0 _]. simpl. lra.
Qed.
(** The values of a vector that is equal to finite literals *)
Definition same3 (v : list double) (x y z : double) : bool := ((length v =? 3)%nat && forallb (fun t => is_finite t) v && o_eq (nth 0 v (cst 0)) x && o_eq (nth 1 v (cst 0)) y && o_eq (nth 2 v (cst 0)) z)%bool.
Lemma same_values : forall v x y z, is_finite x = true -> is_finite y = true -> is_finite z = true -> same3 v x y z = true -> all_finite v /\ values v = [B2R x; B2R y; B2R z].
Proof.
  intros v x y z Fx Fy Fz H. unfold same3 in H. apply andb_prop in H as [H H3]. apply andb_prop in H as [H H2]. apply andb_prop in H as [H H1]. apply andb_prop in H as [L F]. apply Nat.eqb_eq in L.
  destruct v as [|v1 [|v2 [|v3 [|]]]]; try discriminate L. cbn [nth] in *. cbn [forallb] in F. apply andb_prop in F as [G1 F]. apply andb_prop in F as [G2 F]. apply andb_prop in F as [G3 _].
  split; [repeat (apply Forall_cons; [assumption|]); apply Forall_nil|]. unfold values. cbn [map]. exact (f_equal2 cons (eq_values v1 x G1 Fx H1) (f_equal2 cons (eq_values v2 y G2 Fy H2) (f_equal2 cons (eq_values v3 z G3 Fz H3) eq_refl))).
Qed.
(** The planes with the normals (1, 2, 2) and (2^32, 2^33 + 1, 2^33) at the distances 1024 and 16 *)
Definition np_1 : plane double := Pl (cst 1024) (v_normalize [cst 1; cst 2; cst 2]).
Definition np_2 : plane double := Pl (cst 16) (v_normalize [cst 4294967296; cst 8589934593; cst 8589934592]).
Definition np_third : double := @B754_finite 53 1024 false 6004799503160661 (-54) eq_refl.
Definition np_two_thirds : double := @B754_finite 53 1024 false 6004799503160661 (-53) eq_refl.
Definition np_x : double := @B754_finite 53 1024 false 6308301140302658 (-35) eq_refl.
Definition np_y : double := @B754_finite 53 1024 true 7884964107599952 (-34) eq_refl.
Definition np_z : double := @B754_finite 53 1024 false 6308301140302658 (-34) eq_refl.
Lemma np_check : (same3 (pl_normal np_1) np_third np_two_thirds np_two_thirds && same3 (ln_point (intersect_plane_plane np_1 np_2)) np_x np_y np_z)%bool = true.
Proof. vm_cast_no_check (eq_refl true). Qed.
Lemma np_lits : B2R np_third = 6004799503160661 / 18014398509481984 /\ B2R np_two_thirds = 6004799503160661 / 9007199254740992 /\ B2R np_x = 6308301140302658 / 34359738368 /\ B2R np_y = - 7884964107599952 / 17179869184 /\ B2R np_z = 6308301140302658 / 17179869184.
Proof.
  unfold np_third, np_two_thirds, np_x, np_y, np_z. cbn [B2R]. unfold F2R. cbn [Fnum Fexp cond_Zopp Z.opp]. change (bpow radix2 (-54)) with (/ 18014398509481984). change (bpow radix2 (-53)) with (/ 9007199254740992). change (bpow radix2 (-35)) with (/ 34359738368). change (bpow radix2 (-34)) with (/ 17179869184). repeat split; lra.
Qed.
Lemma np_generic : forall (p : plane double) (l : line double), (same3 (pl_normal p) np_third np_two_thirds np_two_thirds && same3 (ln_point l) np_x np_y np_z)%bool = true -> B2R (pl_dist p) = 1024 ->
  l <> ln_default 3 /\ length (ln_point l) = 3%nat /\ all_finite (ln_point l) /\ 1000 <= Rabs (plane_distance p (ln_point l)).
Proof.
  intros p l H D. apply andb_prop in H as [H1 H2]. destruct (same_values _ np_third np_two_thirds np_two_thirds eq_refl eq_refl eq_refl H1) as (F1 & V1). destruct (same_values _ np_x np_y np_z eq_refl eq_refl eq_refl H2) as (F2 & V2). destruct np_lits as (L1 & L2 & L3 & L4 & L5).
  rewrite L1, L2 in V1. rewrite L3, L4, L5 in V2. split; [|split; [|split; [exact F2|]]].
  - intros ->. cbn [ln_point ln_default] in V2. assert (Z := f_equal (fun t => nth 0 t 0) V2). cbn in Z. lra.
  - apply (f_equal (@length R)) in V2. unfold values in V2. rewrite map_length in V2. exact V2.
  - assert (E : plane_distance p (ln_point l) = rdot (values (ln_point l)) (values (pl_normal p)) - B2R (pl_dist p)) by reflexivity. rewrite E, V1, V2, D. cbn [rdot]. rewrite <- Rabs_Ropp. eapply Rle_trans; [|apply Rle_abs]. lra.
Qed.
Lemma nearly_parallel : exists p1 p2 : plane double, nearly_unit (pl_normal p1) /\ nearly_unit (pl_normal p2) /\ B2R (pl_dist p1) = 1024 /\ B2R (pl_dist p2) = 16
  /\ let l := intersect_plane_plane p1 p2 in l <> ln_default 3 /\ length (ln_point l) = 3%nat /\ all_finite (ln_point l) /\ 1000 <= Rabs (plane_distance p1 (ln_point l)).
Proof.
  assert (D1 : B2R (pl_dist np_1) = 1024) by exact (proj2 (cst_double 1024 ltac:(lia))). exists np_1, np_2. split; [apply int_unit; lia|]. split; [apply int_unit; lia|]. split; [exact D1|]. split; [exact (proj2 (cst_double 16 ltac:(lia)))|].
  exact (np_generic np_1 (intersect_plane_plane np_1 np_2) np_check D1).
Qed.
(** The planes with the normals (3, 4, 0) and (0, 0, 1) at the distances 5 and -7 *)
Definition op_1 : plane double := Pl (cst 5) (v_normalize [cst 3; cst 4; cst 0]).
Definition op_2 : plane double := Pl (cst (-7)) (v_normalize [cst 0; cst 0; cst 1]).
Definition op_a : double := @B754_finite 53 1024 false 5404319552844595 (-53) eq_refl.
Definition op_b : double := @B754_finite 53 1024 false 7205759403792794 (-53) eq_refl.
Definition op_0 : double := cst 0.
Definition op_u : double := cst 1.
Lemma op_check : (same3 (pl_normal op_1) op_a op_b op_0 && same3 (pl_normal op_2) op_0 op_0 op_u)%bool = true.
Proof. vm_cast_no_check (eq_refl true). Qed.
Lemma op_sine : 9 / 10 <= angle_sine op_1 op_2.
Proof.
  destruct (andb_prop _ _ op_check) as [H1 H2]. assert (V0 : B2R op_0 = 0) by exact (proj2 (cst_double 0 ltac:(lia))). assert (V1 : B2R op_u = 1) by exact (proj2 (cst_double 1 ltac:(lia))). destruct (same_values _ op_a op_b op_0 eq_refl eq_refl eq_refl H1) as (_ & W1). destruct (same_values _ op_0 op_0 op_u eq_refl eq_refl eq_refl H2) as (_ & W2). rewrite V0 in W1. rewrite V0, V1 in W2.
  assert (LA : B2R op_a = 5404319552844595 / 9007199254740992) by (unfold op_a; cbn [B2R]; unfold F2R; cbn [Fnum Fexp cond_Zopp Z.opp]; change (bpow radix2 (-53)) with (/ 9007199254740992); lra). assert (LB : B2R op_b = 7205759403792794 / 9007199254740992) by (unfold op_b; cbn [B2R]; unfold F2R; cbn [Fnum Fexp cond_Zopp Z.opp]; change (bpow radix2 (-53)) with (/ 9007199254740992); lra).
  rewrite LA, LB in W1. assert (E : angle_sine op_1 op_2 = rnorm (rcross (values (pl_normal op_1)) (values (pl_normal op_2)))) by reflexivity. rewrite E, W1, W2. unfold rnorm. cbn [rcross rdot nth]. rewrite <- (sqrt_square (9 / 10)) by lra. apply sqrt_le_1_alt. lra.
Qed.
Lemma op_case : nearly_unit (pl_normal op_1) /\ nearly_unit (pl_normal op_2) /\ is_finite (pl_dist op_1) = true /\ is_finite (pl_dist op_2) = true /\ Rabs (B2R (pl_dist op_1)) <= 8 /\ Rabs (B2R (pl_dist op_2)) <= 8 /\ 1 <= 8 /\ 32768 * 8 <= bpow radix2 1024
  /\ 100000 * (unit_roundoff 53 * 8) <= angle_sine op_1 op_2 * angle_sine op_1 op_2 /\ / 900 < angle_sine op_1 op_2.
Proof.
  destruct (cst_double 5 ltac:(lia)) as (G5 & V5). destruct (cst_double (-7) ltac:(lia)) as (G7 & V7). assert (S9 := op_sine). assert (U : unit_roundoff 53 <= / 1000000000). { unfold unit_roundoff. cbn. lra. }
  split; [apply int_unit; lia|]. split; [apply int_unit; lia|]. split; [exact G5|]. split; [exact G7|]. cbn [pl_dist op_1 op_2]. rewrite V5, V7. split; [apply Rabs_le; lra|]. split; [apply Rabs_le; lra|]. split; [lra|]. split; [apply Rle_trans with (bpow radix2 30); [cbn; lra|apply bpow_le; lia]|]. split; [nra|lra].
Qed.
