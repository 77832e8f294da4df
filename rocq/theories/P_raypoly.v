(** Intersections of rays and polygons in machine arithmetic (C118). *)
From Coq Require Import ZArith Reals List Lia Lra Bool Psatz Arith.
From Flocq Require Import Core BinarySingleNaN.
From Verif Require Import P_poly2d Ops M_scalar M_vec M_geom M_intersect Inst_F Inst_XR S_vec S_geom S_rnd S_hit S_intersect S_raybox S_polygon S_winding S_polyf S_raypoly P_ord P_ieee P_xr P_vec P_vec2 P_line P_polygon P_winding P_safe P_fp P_fp4 P_hit P_hit2 P_hit3 P_ft P_tbox P_polyf P_polyf2.
Import ListNotations.
Local Open Scope R_scope.

(** ** Moving the point without touching the boundary *)
Lemma same_sign_moved : forall h k e, e < Rabs h -> Rabs (k - h) <= e -> 0 < h * k.
Proof.
  intros h k e H K. apply Rabs_le_inv in K. unfold Rabs in H. destruct (Rcase_abs h) as [N|P].
  - replace (h * k) with (- h * - k) by ring. apply Rmult_lt_0_compat; lra.
  - apply Rmult_lt_0_compat; lra.
Qed.
Lemma product_sign : forall a b a' b', 0 < a * a' -> 0 < b * b' -> a * b < 0 -> a' * b' < 0.
Proof.
  intros a b a' b' A B C. assert (P := Rmult_lt_0_compat _ _ A B). replace (a * a' * (b * b')) with (a * b * (a' * b')) in P by ring. apply Rnot_le_lt. intros K. assert (a * b * (a' * b') <= 0); [|lra]. replace 0 with (0 * (a' * b')) by ring. apply Rmult_le_compat_r; lra.
Qed.
Section Move.
Variables (axis : nat) (vs : list (list R)) (p p' : list R) (m e : R).
Hypothesis (AX : (axis < 3)%nat) (F : Forall (fun v => length v = 3%nat) vs) (N0 : (0 < length vs)%nat) (Lp : length p = 3%nat) (Lp' : length p' = 3%nat).
Hypothesis (DA : Rabs (across axis p' - across axis p) <= e) (DH : Rabs (height axis p' - height axis p) <= e).
Hypothesis (CH : clear_height_by m axis vs p) (CB : clear_boundary_by m axis vs p) (OL : off_level e axis vs p) (ME : / 1000 + e < m).
Let A i := across axis (vertex vs i) - across axis p. Let H i := height axis (vertex vs i) - height axis p.
Let A' i := across axis (vertex vs i) - across axis p'. Let H' i := height axis (vertex vs i) - height axis p'.
Lemma moved_signs : forall i, 0 < H i * H' i.
Proof. intros i. apply same_sign_moved with e; [apply OL|]. replace (H' i - H i) with (- (height axis p' - height axis p)) by (unfold H', H; ring). rewrite Rabs_Ropp. exact DH. Qed.
Lemma moved_height : clear_height_by (m - e) axis vs p'.
Proof.
  intros i. fold (H' i) (H' (S i)). assert (S0 := moved_signs i). assert (S1 := moved_signs (S i)). split; [intros Z; rewrite Z, Rmult_0_r in S0; lra|].
  assert (D : forall k, Rabs (H k) <= Rabs (H' k) + e). { intros k. replace (H k) with (H' k + (height axis p' - height axis p)) by (unfold H, H'; ring). eapply Rle_trans; [apply Rabs_triang|lra]. }
  destruct (proj2 (CH i)) as [Q|[Q|Q]]; fold (H i) in Q; fold (H (S i)) in Q.
  - left. assert (P := Rmult_lt_0_compat _ _ S0 S1). replace (H i * H' i * (H (S i) * H' (S i))) with (H i * H (S i) * (H' i * H' (S i))) in P by ring. apply Rmult_lt_reg_l with (H i * H (S i)); [exact Q|lra].
  - right; left. assert (G := D i). lra.
  - right; right. assert (G := D (S i)). lra.
Qed.
Lemma moved_boundary : clear_boundary_by (m - e) axis vs p'.
Proof.
  intros q Q. destruct (CB q Q) as [B|B]; [left|right].
  - replace (across axis q - across axis p) with ((across axis q - across axis p') + (across axis p' - across axis p)) in B by ring. assert (T := Rabs_triang (across axis q - across axis p') (across axis p' - across axis p)). lra.
  - replace (height axis q - height axis p) with ((height axis q - height axis p') + (height axis p' - height axis p)) in B by ring. assert (T := Rabs_triang (height axis q - height axis p') (height axis p' - height axis p)). lra.
Qed.
Let c i := A i - H i * (A (S i) - A i) / (H (S i) - H i).
Let c' i := A' i - H' i * (A' (S i) - A' i) / (H' (S i) - H' i).
Lemma VL : forall i, length (vertex vs i) = 3%nat.
Proof. intros i. rewrite Forall_forall in F. apply F. unfold vertex. apply nth_In, Nat.mod_upper_bound. lia. Qed.
(** Otherwise, the boundary would meet the way from one point to the other. *)
Lemma moved_crossing : forall i, H i * H (S i) < 0 -> 0 < c i * c' i.
Proof.
  intros i C. assert (C' : H' i * H' (S i) < 0) by exact (product_sign _ _ _ _ (moved_signs i) (moved_signs (S i)) C).
  destruct (opposite (H i) (H (S i)) 0 0 0) as (DY & _ & _ & _ & T & _); [lra|rewrite Rabs_R0; lra..|exact C|]. destruct (opposite (H' i) (H' (S i)) 0 0 0) as (_ & _ & _ & _ & T' & _); [lra|rewrite Rabs_R0; lra..|exact C'|].
  assert (E0 : 0 <= e) by (generalize (Rabs_pos (across axis p' - across axis p)); lra).
  apply Rnot_le_lt. intros K.
  assert (L : exists l, 0 <= l <= 1 /\ (1 - l) * c i + l * c' i = 0).
  { destruct (Req_dec (c i) (c' i)) as [Q|Q].
    - exists 0. split; [lra|]. assert (c i = 0); [|lra]. rewrite <- Q in K. apply Rmult_integral_contrapositive_currified || idtac. destruct (Req_dec (c i) 0) as [Z|Z]; [exact Z|]. exfalso. assert (0 < c i * c i) by (apply Rsqr_pos_lt in Z; exact Z). lra.
    - exists (c i / (c i - c' i)). split; [|field; lra]. assert (G : c i * (c i - c' i) >= 0 /\ - c' i * (c i - c' i) >= 0). { assert (0 <= c i * c i) by apply Rle_0_sqr. assert (0 <= c' i * c' i) by apply Rle_0_sqr. lra. }
      destruct G as [G1 G2]. set (d := c i - c' i) in *. assert (D0 : d <> 0) by (unfold d; lra). assert (DD : 0 < d * d) by (apply Rsqr_pos_lt in D0; exact D0). split.
      + replace (c i / d) with (c i * d / (d * d)) by (field; exact D0). apply Rmult_le_pos; [lra|apply Rlt_le, Rinv_0_lt_compat, DD].
      + assert (1 - c i / d = - c' i * d / (d * d)) by (unfold d in *; field; exact D0). assert (0 <= - c' i * d / (d * d)) by (apply Rmult_le_pos; [lra|apply Rlt_le, Rinv_0_lt_compat, DD]). lra. }
  destruct L as (l & L01 & EQ). set (t := - H i / (H (S i) - H i)) in *. set (t' := - H' i / (H' (S i) - H' i)) in *.
  assert (DD : H' (S i) - H' i = H (S i) - H i) by (unfold H', H; ring). assert (AA : A' (S i) - A' i = A (S i) - A i) by (unfold A', A; ring). set (s := (1 - l) * t + l * t').
  assert (S01 : 0 <= s <= 1).
  { assert (0 <= (1 - l) * t) by (apply Rmult_le_pos; lra). assert (0 <= l * t') by (apply Rmult_le_pos; lra). assert (0 <= (1 - l) * (1 - t)) by (apply Rmult_le_pos; lra). assert (0 <= l * (1 - t')) by (apply Rmult_le_pos; lra). unfold s. lra. }
  destruct (across_lerp axis (vertex vs i) (vertex vs (S i)) s AX (VL i) (VL (S i))) as [Q1 Q2].
  assert (W : forall x, Rabs x <= e -> Rabs (l * x) <= e). { intros x Hx. rewrite Rabs_mult, (Rabs_pos_eq l) by lra. apply Rle_trans with (1 * e); [apply Rmult_le_compat; auto using Rabs_pos; lra|lra]. }
  assert (X1 : across axis (rlerp (vertex vs i) (vertex vs (S i)) s) - across axis p = l * (across axis p' - across axis p)).
  { rewrite Q1. replace (across axis (vertex vs (S i)) - across axis (vertex vs i)) with (A (S i) - A i) by (unfold A; ring).
    assert (G : c i = A i + t * (A (S i) - A i)) by (unfold c, t; field; exact DY). assert (G' : c' i = A' i + t' * (A (S i) - A i)) by (unfold c', t'; rewrite AA, DD; field; exact DY). rewrite G, G' in EQ. replace (A' i) with (A i - (across axis p' - across axis p)) in EQ by (unfold A', A; ring). replace (across axis (vertex vs i)) with (A i + across axis p) by (unfold A; ring). unfold s. lra. }
  assert (X2 : height axis (rlerp (vertex vs i) (vertex vs (S i)) s) - height axis p = l * (height axis p' - height axis p)).
  { rewrite Q2. replace (height axis (vertex vs (S i)) - height axis (vertex vs i)) with (H (S i) - H i) by (unfold H; ring).
    assert (G : H i + t * (H (S i) - H i) = 0) by (unfold t; field; exact DY). assert (G' : H' i + t' * (H (S i) - H i) = 0) by (unfold t'; rewrite DD; field; exact DY). replace (H' i) with (H i - (height axis p' - height axis p)) in G' by (unfold H', H; ring). replace (height axis (vertex vs i)) with (H i + height axis p) by (unfold H; ring). unfold s.
    assert (G1 : t * (H (S i) - H i) = - H i) by lra. assert (G2 : t' * (H (S i) - H i) = - H i + (height axis p' - height axis p)) by lra. replace (((1 - l) * t + l * t') * (H (S i) - H i)) with ((1 - l) * (t * (H (S i) - H i)) + l * (t' * (H (S i) - H i))) by ring. rewrite G1, G2. ring. }
  destruct (CB (rlerp (vertex vs i) (vertex vs (S i)) s)) as [B|B]; [exists i, s; auto|rewrite X1 in B; assert (G := W _ DA); lra|rewrite X2 in B; assert (G := W _ DH); lra].
Qed.
Lemma crossing_clear : forall i, H i * H (S i) < 0 -> m < Rabs (c i).
Proof.
  intros i C. destruct (opposite (H i) (H (S i)) 0 0 0) as (DY & _ & _ & _ & T & _); [lra|rewrite Rabs_R0; lra..|exact C|]. set (t := - H i / (H (S i) - H i)) in *.
  assert (E0 : 0 <= e) by (generalize (Rabs_pos (across axis p' - across axis p)); lra).
  destruct (across_lerp axis (vertex vs i) (vertex vs (S i)) t AX (VL i) (VL (S i))) as [Q1 Q2]. destruct (CB (rlerp (vertex vs i) (vertex vs (S i)) t)) as [B|B]; [exists i, t; auto| |].
  - rewrite Q1 in B. replace (c i) with (across axis (vertex vs i) + t * (across axis (vertex vs (S i)) - across axis (vertex vs i)) - across axis p); [exact B|]. unfold c, t. replace (A (S i) - A i) with (across axis (vertex vs (S i)) - across axis (vertex vs i)) by (unfold A; ring). unfold A. field. exact DY.
  - exfalso. rewrite Q2 in B. replace (height axis (vertex vs i) + t * (height axis (vertex vs (S i)) - height axis (vertex vs i)) - height axis p) with 0 in B; [rewrite Rabs_R0 in B; lra|].
    replace (height axis (vertex vs (S i)) - height axis (vertex vs i)) with (H (S i) - H i) by (unfold H; ring). replace (height axis (vertex vs i) + t * (H (S i) - H i) - height axis p) with (H i + t * (H (S i) - H i)) by (unfold H; ring). unfold t. field. exact DY.
Qed.
End Move.
(** Clear points are given the same answer if they are close to each other. *)
Lemma moved_same : forall axis vs p p' m e, (axis < 3)%nat -> Forall (fun v => length v = 3%nat) vs -> (0 < length vs)%nat -> length p = 3%nat -> length p' = 3%nat ->
  Rabs (across axis p' - across axis p) <= e -> Rabs (height axis p' - height axis p) <= e -> clear_height_by m axis vs p -> clear_boundary_by m axis vs p -> off_level e axis vs p -> / 1000 + 2 * e < m ->
  polygon_contains_point (vS p) axis (map vS vs) = polygon_contains_point (vS p') axis (map vS vs).
Proof.
  intros axis vs p p' m e AX F N0 Lp Lp' DA DH CH CB OL ME. assert (E0 : 0 <= e) by (generalize (Rabs_pos (across axis p' - across axis p)); lra). rewrite !real_loop by assumption. apply f_equal, loop_result_ext. intros i.
  assert (MH := moved_height axis vs p p' m e DH CH OL). assert (MB := moved_boundary axis vs p p' m e DA DH CB). assert (SG := moved_signs axis vs p p' e DH OL).
  assert (VLi := VL axis vs p m e F N0 OL ltac:(lra)) || assert (VLi : forall i, length (vertex vs i) = 3%nat) by (intros k; rewrite Forall_forall in F; apply F; unfold vertex; apply nth_In, Nat.mod_upper_bound; lia).
  assert (NB : forall q k, / 1000 < k -> clear_boundary_by k axis vs q -> forall i, ~ (Rabs (across axis (vertex vs i) - across axis q) <= / 1000 /\ Rabs (height axis (vertex vs i) - height axis q) <= / 1000)).
  { intros q k K B j [B1 B2]. destruct (B (vertex vs j)) as [X|X]; [|lra|lra]. exists j, 0. split; [lra|]. assert (L := VLi j). assert (L' := VLi (S j)). unfold rlerp. vext. ring. }
  assert (NBp := NB p m ltac:(lra) CB i). assert (NBp' := NB p' (m - e) ltac:(lra) MB i).
  assert (CHi := CH i). assert (CHs := CH (S i)). assert (MHi := MH i). assert (MHs := MH (S i)). cbv beta zeta in CHi, CHs, MHi, MHs. destruct CHi as (H0 & SI), CHs as (H1 & _), MHi as (H0' & SI'), MHs as (H1' & _).
  set (a := across axis (vertex vs i) - across axis p) in *. set (h := height axis (vertex vs i) - height axis p) in *. set (a1 := across axis (vertex vs (S i)) - across axis p) in *. set (h1 := height axis (vertex vs (S i)) - height axis p) in *.
  set (b := across axis (vertex vs i) - across axis p') in *. set (k := height axis (vertex vs i) - height axis p') in *. set (b1 := across axis (vertex vs (S i)) - across axis p') in *. set (k1 := height axis (vertex vs (S i)) - height axis p') in *.
  assert (S0 := SG i). assert (S1 := SG (S i)). cbv beta zeta in S0, S1. fold h k in S0. fold h1 k1 in S1.
  destruct (edge_spec a h (nth axis (vertex vs i) 0 - nth axis p 0) a1 h1 (nth axis (vertex vs (S i)) 0 - nth axis p 0) H0 H1) as [E1 E2]; [destruct SI as [Q|[Q|Q]]; [left; exact Q|right; left; lra|right; right; lra]|].
  destruct (edge_spec b k (nth axis (vertex vs i) 0 - nth axis p' 0) b1 k1 (nth axis (vertex vs (S i)) 0 - nth axis p' 0) H0' H1') as [E3 E4]; [destruct SI' as [Q|[Q|Q]]; [left; exact Q|right; left; lra|right; right; lra]|].
  change (relative axis p (vertex vs i)) with [a; h; nth axis (vertex vs i) 0 - nth axis p 0]. change (relative axis p (vertex vs (S i))) with [a1; h1; nth axis (vertex vs (S i)) 0 - nth axis p 0].
  change (relative axis p' (vertex vs i)) with [b; k; nth axis (vertex vs i) 0 - nth axis p' 0]. change (relative axis p' (vertex vs (S i))) with [b1; k1; nth axis (vertex vs (S i)) 0 - nth axis p' 0].
  destruct (Rlt_dec (h * h1) 0) as [C|C].
  - assert (C' : k * k1 < 0) by exact (product_sign _ _ _ _ S0 S1 C).
    assert (MC : 0 < (a - h * (a1 - a) / (h1 - h)) * (b - k * (b1 - b) / (k1 - k))) by exact (moved_crossing axis vs p p' m e AX F N0 Lp Lp' DA DH CB OL ltac:(lra) i C).
    assert (CC : m < Rabs (a - h * (a1 - a) / (h1 - h))) by exact (crossing_clear axis vs p p' m e AX F N0 Lp Lp' DA CB ltac:(lra) i C).
    assert (CC' : m - e < Rabs (b - k * (b1 - b) / (k1 - k))).
    { refine (crossing_clear axis vs p' p' (m - e) 0 AX F N0 Lp' Lp' _ MB _ i C'); [rewrite Rminus_diag_eq by reflexivity; rewrite Rabs_R0; lra|lra]. }
    set (x := a - h * (a1 - a) / (h1 - h)) in *. set (y := b - k * (b1 - b) / (k1 - k)) in *.
    assert (NEG : forall x y, 0 < x * y -> 0 < x -> y < 0 -> False). { intros x0 y0 P X Y. assert (x0 * y0 <= 0); [|lra]. replace 0 with (x0 * 0) by ring. apply Rmult_le_compat_l; lra. }
    destruct (E1 C) as [[Q1 X]|[[Q1 X]|[_ [X|X]]]]; [| |exfalso; exact (NBp X)|exfalso; fold x in X; lra]; (destruct (E3 C') as [[Q3 Y]|[[Q3 Y]|[_ [Y|Y]]]]; [| |exfalso; exact (NBp' Y)|exfalso; fold y in Y; lra]); rewrite Q1, Q3; try reflexivity; exfalso.
    + exact (NEG x y MC X Y).
    + rewrite Rmult_comm in MC. exact (NEG y x MC Y X).
  - assert (C' : ~ k * k1 < 0). { intros K. apply C. apply (product_sign k k1 h h1); [rewrite Rmult_comm; exact S0|rewrite Rmult_comm; exact S1|exact K]. }
    destruct (E2 C) as [Q|[_ Q]]; [|contradiction]. destruct (E4 C') as [Q'|[_ Q']]; [|contradiction]. rewrite Q, Q'. reflexivity.
Qed.

Section FP.
Variables prec emax : Z.
Context {Hprec : Prec_gt_0 prec} {Hmax : Prec_lt_emax prec emax}.
Notation fl := (binary_float prec emax).
Notation u := (unit_roundoff prec).
Notation Om := (bpow radix2 emax).
Hypothesis U20 : (20 <= prec)%Z.
Hypothesis E20 : (20 <= emax)%Z.

Section Hit.
Variables (o d : list fl) (p : plane fl) (M t : R).
Hypothesis (Nd : nearly_unit d) (Nn : nearly_unit (pl_normal p)) (Wo : within M o) (Fp : is_finite (pl_dist p) = true) (Bp : Rabs (B2R (pl_dist p)) <= M) (M1 : 1 <= M) (MO : 16384 * (M * M) <= Om) (MU : bpow radix2 27 * (u * M) <= 1).
Let c := Rabs (rdot (values d) (values (pl_normal p))).
Let q := rpoint (values o) (values d) t.
Hypothesis (C0 : / 900 <= c) (T0 : 0 <= t <= M) (ON : on_plane 3 (plane_values p) q).
Let e := 100 * (u * M) / c.
Let s := intersect_ray_plane (Ray o d) p.
Lemma hit_position : is_finite s = true /\ Rabs (B2R s - t) <= 82 * (u * M / c) /\ u * M <= 101 / 100 * (u * M / c) /\ u * M / c <= 9 / 10000 * M /\ 0 <= u * M / c.
Proof.
  destruct (u_small prec U20) as [U0 U1]. assert (UM0 : 0 < u * M) by (apply Rmult_lt_0_compat; lra). assert (MM : 1 * M <= M * M) by (apply Rmult_le_compat_r; lra). assert (OM : 16384 * M <= Om) by lra.
  set (k := rdot (values d) (values (pl_normal p))) in *. assert (K0 : 0 < c) by lra.
  assert (KB : c <= 101 / 100). { destruct (unit_facts prec emax U20 d Nd) as (_ & _ & B1). destruct (unit_facts prec emax U20 (pl_normal p) Nn) as (_ & _ & B2). unfold c, k. eapply Rle_trans; [apply abs_dot_le; unfold values; rewrite !map_length, (proj1 Nd), (proj1 Nn); reflexivity|]. eapply Rle_trans; [apply Rle_abs|]. rewrite Rabs_mult. apply Rle_trans with (1001 / 1000 * (1001 / 1000)); [apply Rmult_le_compat; auto using Rabs_pos|lra]. }
  assert (PD : plane_distance p o + t * k = 0).
  { destruct ON as (_ & E). unfold plane_values in E. cbn [pl_normal pl_dist] in E. unfold q, rpoint in E. rewrite rdot_add_l, rdot_scale_l in E by (unfold values; rewrite ?rscale_length, !map_length, ?(proj1 Nd), ?(proj1 Nn), (proj1 Wo); reflexivity). unfold plane_distance. fold k in E. lra. }
  assert (IC : u * M / c = u * M * / c) by reflexivity. assert (ICB : 0 < / c) by (apply Rinv_0_lt_compat; exact K0). assert (IC0 : 0 <= u * M / c) by (rewrite IC; apply Rmult_le_pos; lra).
  assert (R1 : u * M <= 101 / 100 * (u * M / c)). { replace (101 / 100 * (u * M / c)) with (u * M * (101 / 100 / c)) by (field; lra). rewrite <- (Rmult_1_r (u * M)) at 1. apply Rmult_le_compat_l; [lra|]. apply Rmult_le_reg_r with c; [exact K0|]. unfold Rdiv. rewrite Rmult_assoc, Rinv_l by lra. lra. }
  assert (R2 : u * M / c <= 9 / 10000 * M). { apply Rmult_le_reg_r with c; [exact K0|]. unfold Rdiv at 1. rewrite Rmult_assoc, Rinv_l by lra. rewrite Rmult_1_r. assert (9 / 10000 * M * / 900 <= 9 / 10000 * M * c) by (apply Rmult_le_compat_l; lra). assert (u * M <= / 1000000 * M) by (apply Rmult_le_compat_r; lra). lra. }
  destruct (az_near prec emax U20 E20) as (_ & AZ). apply Rabs_le_inv in AZ.
  destruct (ray_plane_iff prec emax U20 E20 o d p M Nd Nn Wo Fp Bp M1 OM) as (_ & _ & I). fold s in I. assert (FS : is_finite s = true).
  { apply I; [fold k c; lra| |exact MU]. fold k. replace (- plane_distance p o) with (t * k) by lra. assert (K : k <> 0) by (intros Z; unfold c in K0; rewrite Z, Rabs_R0 in K0; lra). replace (t * k / k) with t by (field; exact K). lra. }
  destruct (ray_plane_hit prec emax U20 E20 o d p M Nd Nn Wo Fp Bp M1 OM FS) as (_ & H & _). fold s k in H. split; [exact FS|]. split; [|auto].
  replace (B2R s * k + plane_distance p o) with ((B2R s - t) * k) in H by lra. rewrite Rabs_mult in H. fold c in H. set (x := Rabs (B2R s - t)) in *.
  assert (SB : Rabs (B2R s) <= M + x). { replace (B2R s) with (t + (B2R s - t)) by ring. eapply Rle_trans; [apply Rabs_triang|]. fold x. rewrite (Rabs_pos_eq t) by lra. lra. }
  assert (X0 : 0 <= x) by apply Rabs_pos. assert (H2 : x * c <= u * (81 * M + 11 * x)) by (eapply Rle_trans; [exact H|apply Rmult_le_compat_l; lra]). assert (H3 : x * (11 * u) <= x * (99 / 10000 * c)) by (apply Rmult_le_compat_l; lra).
  apply Rmult_le_reg_r with c; [exact K0|]. replace (82 * (u * M / c) * c) with (82 * (u * M)) by (field; lra). lra.
Qed.
Lemma hit_point : let q' := al_point_at_distance o d s in within (21 / 10 * M) q' /\ Forall2 (fun x y => Rabs (x - y) <= e) (values q') q.
Proof.
  destruct (u_small prec U20) as [U0 U1]. destruct hit_position as (FS & HS & R1 & R2 & R0). assert (UM0 : 0 < u * M) by (apply Rmult_lt_0_compat; lra). assert (MM : 1 * M <= M * M) by (apply Rmult_le_compat_r; lra). assert (OM : 16384 * M <= Om) by lra. apply Rabs_le_inv in HS.
  assert (SB : Rabs (B2R s) <= 108 / 100 * M) by (apply Rabs_le; lra). destruct (point_near prec emax U20 E20 o d s M Wo Nd FS ltac:(lra) M1 OM) as (Lq & Fq & NQ). cbv zeta. set (q' := al_point_at_distance o d s) in *.
  assert (EE : e = 100 * (u * M / c)) by (unfold e; unfold Rdiv; ring).
  assert (US : u * (101 / 100 * M + 21 / 10 * Rabs (B2R s)) <= 33 / 10 * (u * M)). { replace (33 / 10 * (u * M)) with (u * (33 / 10 * M)) by ring. apply Rmult_le_compat_l; lra. }
  destruct (unit_facts prec emax U20 d Nd) as (Bd & _). destruct (within3 prec emax M o Wo) as (o0 & o1 & o2 & Eo & _ & (B1 & B2 & B3)). assert (Ld := proj1 Nd). unfold q, rpoint in *. clear q. rewrite Eo in *. clear Eo. clearbody q'. destruct d as [|d0 [|d1 [|d2 [|]]]]; try discriminate Ld.
  cbn [values map] in Bd. inversion Bd as [|? ? C1 Bd1]; subst. inversion Bd1 as [|? ? C2 Bd2]; subst. inversion Bd2 as [|? ? C3 _]; subst. cbn [values map rscale radd zip map2] in NQ |- *.
  inversion NQ as [|x0 ? Q1 ? N1 T1]; subst. inversion T1 as [|x1 ? Q2 ? N2 T2]; subst. inversion T2 as [|x2 ? Q3 ? N3 T3]; subst. inversion T3; subst.
  assert (G : forall (x : fl) a b, near x (a + b * B2R s) (u * (101 / 100 * M + 21 / 10 * Rabs (B2R s))) -> Rabs a <= M -> Rabs b <= 1001 / 1000 -> Rabs (B2R x - (a + t * b)) <= e /\ Rabs (B2R x) <= 21 / 10 * M).
  { intros x a b (_ & N) Ba Bb. assert (D : Rabs (b * (B2R s - t)) <= 1001 / 1000 * (82 * (u * M / c))) by (rewrite Rabs_mult; apply Rmult_le_compat; auto using Rabs_pos; apply Rabs_le; lra). assert (TB : Rabs (t * b) <= M * (1001 / 1000)) by (rewrite Rabs_mult, (Rabs_pos_eq t) by lra; apply Rmult_le_compat; auto using Rabs_pos; lra).
    assert (E1 : Rabs (B2R x - (a + t * b)) <= e). { replace (B2R x - (a + t * b)) with ((B2R x - (a + b * B2R s)) + b * (B2R s - t)) by ring. eapply Rle_trans; [apply Rabs_triang|]. lra. }
    split; [exact E1|]. apply Rabs_le_inv in E1, Ba, TB. apply Rabs_le. lra. }
  destruct (G _ _ _ N1 B1 C1) as (G1 & H1). destruct (G _ _ _ N2 B2 C2) as (G2 & H2). destruct (G _ _ _ N3 B3 C3) as (G3 & H3).
  split.
  - split; [exact Lq|]. split; [exact Fq|]. cbn [values map]. repeat (apply Forall_cons; [assumption|]). apply Forall_nil.
  - repeat (apply Forall2_cons; [assumption|]). apply Forall2_nil.
Qed.
End Hit.

Lemma ray_polygon_ok : forall (r : ray fl) (p : plane fl) (vs : list (list fl)) M m t, nearly_unit (ray_dir r) -> nearly_unit (pl_normal p) -> within M (ray_origin r) -> is_finite (pl_dist p) = true -> Rabs (B2R (pl_dist p)) <= M ->
  vs <> [] -> Forall (within M) vs -> 1 <= M -> 16384 * (M * M) <= Om -> bpow radix2 27 * (u * M) <= 1 -> / 900 <= slant r p -> 0 <= t <= M -> let q := ray_at (ray_values r) t in on_plane 3 (plane_values p) q ->
  let e := ray_polygon_error prec M (slant r p) in / 900 + 4 * e <= m ->
  exists axis, find_abs_max_component (pl_normal p) 0 = Ret axis /\ (axis < 3)%nat /\
  let vs' := map (fun v => seen axis (values v)) vs in let q' := seen axis q in
  (clear_height_by m axis vs' q' -> off_level e axis vs' q' -> clear_boundary_by m axis vs' q' ->
  exists w, winding_number (axis_dir axis) vs' q' w /\ (forall w', winding_number (axis_dir axis) vs' q' w' -> w' = w)
    /\ exists x, intersect_ray_polygon_plane r p vs = Ret x /\ if Z.odd w then near x t e else BinarySingleNaN.is_nan x = true).
Proof.
  intros [o d] p vs M m t Nd Nn Wo Fp Bp NE Wv M1 MO MU C0 T0 q ON e HM. cbn [ray_origin ray_dir] in *. unfold slant in *. cbn [ray_dir] in *. set (c := Rabs (rdot (values d) (values (pl_normal p)))) in *.
  destruct (u_small prec U20) as [U0 U1]. destruct (hit_position o d p M t Nd Nn Wo Fp Bp M1 MO MU C0 T0 ON) as (FS & HS & R1 & R2 & R0). destruct (hit_point o d p M t Nd Nn Wo Fp Bp M1 MO MU C0 T0 ON) as (WQ & NQ). fold c in HS, R1, R2, R0, NQ. fold e in NQ.
  set (s := intersect_ray_plane (Ray o d) p) in *. set (x := al_point_at_distance o d s) in *. change (rpoint (values o) (values d) t) with q in NQ.
  assert (EE : e = 100 * (u * M / c)) by (unfold e, ray_polygon_error; unfold Rdiv; ring). assert (UM0 : 0 < u * M) by (apply Rmult_lt_0_compat; lra). assert (MM : 1 * M <= M * M) by (apply Rmult_le_compat_r; lra).
  destruct (find_abs_max_ret (pl_normal p) 0 ltac:(rewrite (proj1 Nn); lia)) as (axis & EA & AX). rewrite (proj1 Nn) in AX. exists axis. split; [exact EA|]. split; [exact AX|]. intros CH OL CB. set (vs' := map (fun v : list fl => seen axis (values v)) vs) in *. set (q' := seen axis q) in *.
  assert (Lq : length q = 3%nat) by (unfold q, ray_at, ray_values; cbn [ray_origin ray_dir]; unfold rpoint; rewrite radd_length; unfold values; rewrite ?rscale_length, !map_length, ?(proj1 Nd), (proj1 Wo); reflexivity).
  assert (Lx : length (values x) = 3%nat) by (unfold values; rewrite map_length; apply WQ). set (x' := seen axis (values x)).
  destruct (seen_coords axis q AX Lq) as (Lq' & QA & QH & QD). destruct (seen_coords axis (values x) AX Lx) as (Lx' & XA & XH & XD). fold q' in Lq', QA, QH, QD. fold x' in Lx', XA, XH, XD.
  assert (NTH : forall i, Rabs (nth i (values x) 0 - nth i q 0) <= e). { assert (E0 : 0 <= e) by lra. clear - NQ E0. induction NQ as [|y z l l' H _ IH]; intros i; [destruct i; cbn; rewrite Rminus_diag_eq by reflexivity; rewrite Rabs_R0; exact E0|]. destruct i; cbn [nth]; auto. }
  assert (DA : Rabs (across axis x' - across axis q') <= e) by (rewrite XA, QA; apply NTH). assert (DH : Rabs (height axis x' - height axis q') <= e) by (rewrite XH, QH; apply NTH).
  assert (N0 : (0 < length vs)%nat) by (destruct vs; [contradiction|cbn; lia]). assert (LN : length vs' = length vs) by apply map_length.
  assert (FV : Forall (fun v => length v = 3%nat /\ rdot v (axis_dir axis) = 0) vs').
  { unfold vs'. apply Forall_map. eapply Forall_impl; [|exact Wv]. intros v (Lv & _). assert (Lv' : length (values v) = 3%nat) by (unfold values; now rewrite map_length). destruct (seen_coords axis (values v) AX Lv') as (Q1 & _ & _ & Q2). auto. }
  assert (F3 : Forall (fun v => length v = 3%nat) vs') by (eapply Forall_impl; [|exact FV]; intros v [Q _]; exact Q). destruct (axis_dir_ok axis AX) as (LA & NA).
  assert (VI : forall i, In (vertex vs' i) vs') by (intros i; unfold vertex; apply nth_In, Nat.mod_upper_bound; lia).
  assert (PL : plane_polygon (axis_dir axis) vs').
  { split; [lia|]. split; [exact F3|]. rewrite Forall_forall in FV. intros i j. rewrite (proj2 (FV _ (VI i))), (proj2 (FV _ (VI j))). reflexivity. }
  assert (V00 : rdot (vertex vs' 0) (axis_dir axis) = 0) by (rewrite Forall_forall in FV; apply (proj2 (FV _ (VI 0%nat)))).
  assert (WK : forall y k, / 1000 < k -> clear_height_by k axis vs' y -> clear_boundary_by k axis vs' y -> clear_height axis vs' y /\ clear_boundary axis vs' y).
  { intros y k K H B. split; [intros i; destruct (H i) as (Q1 & Q2); split; [exact Q1|]; destruct Q2 as [Q2|[Q2|Q2]]; [left; exact Q2|right; left; lra|right; right; lra]|]. intros z Q. destruct (B z Q) as [X|X]; [left|right]; lra. }
  assert (MH := moved_height axis vs' q' x' m e DH CH OL). assert (MB := moved_boundary axis vs' q' x' m e DA DH CB).
  destruct (WK q' m ltac:(lra) CH CB) as (CH1 & CB1). destruct (WK x' (m - e) ltac:(lra) MH MB) as (CH2 & CB2).
  destruct (winding_ok (axis_dir axis) vs' q' axis LA PL Lq' ltac:(rewrite V00; exact QD) AX NA CH1 CB1) as (w & W1 & W2 & W3). exists w. split; [exact W1|]. split; [exact W2|].
  assert (SAME := moved_same axis vs' q' x' m e AX F3 ltac:(lia) Lq' Lx' DA DH CH CB OL ltac:(lra)).
  assert (MO2 : 32 * (21 / 10 * M * (21 / 10 * M)) <= Om) by lra.
  assert (W2M : Forall (within (21 / 10 * M)) vs). { eapply Forall_impl; [|exact Wv]. intros v (L1 & L2 & L3). split; [exact L1|]. split; [exact L2|]. eapply Forall_impl; [|exact L3]. intros y Hy. cbv beta in *. lra. }
  destruct (polygon_ok prec emax U20 E20 x vs axis (21 / 10 * M) (m - e) AX NE WQ W2M ltac:(lra) MO2 ltac:(lra) MH MB) as (w2 & X1 & X2 & X3).
  destruct (winding_ok (axis_dir axis) vs' x' axis LA PL Lx' ltac:(rewrite V00; exact XD) AX NA CH2 CB2) as (w3 & Y1 & Y2 & Y3). assert (E23 : w3 = w2) by (apply X2; exact Y1). rewrite SAME, Y3, E23 in W3. injection W3 as W3.
  unfold intersect_ray_polygon_plane. fold s. change (ray_origin {| ray_origin := o; ray_dir := d |}) with o. change (ray_dir {| ray_origin := o; ray_dir := d |}) with d. fold x.
  assert (NS : is_nan s = false) by (rewrite F_is_nan; destruct s; try discriminate; reflexivity). rewrite NS. unfold polygon_contains_point_n. rewrite EA. cbn [bind]. rewrite X3. cbn [bind]. rewrite W3. eexists. split; [reflexivity|].
  destruct (Z.odd w); [|reflexivity]. split; [exact FS|]. eapply Rle_trans; [exact HS|]. lra.
Qed.
(** Rays that are almost parallel to the plane or lead away from it do not hit the polygon. *)
Lemma ray_polygon_miss : forall (r : ray fl) (p : plane fl) (vs : list (list fl)) M, nearly_unit (ray_dir r) -> nearly_unit (pl_normal p) -> within M (ray_origin r) -> is_finite (pl_dist p) = true -> Rabs (B2R (pl_dist p)) <= M -> 1 <= M -> 16384 * M <= Om ->
  let c := rdot (values (ray_dir r)) (values (pl_normal p)) in slant r p <= / 1100 \/ (exists t, t * c = - plane_distance p (ray_origin r) /\ t * slant r p < - (/ 900 + 71 * (u * M))) ->
  exists x, intersect_ray_polygon_plane r p vs = Ret x /\ BinarySingleNaN.is_nan x = true.
Proof.
  intros [o d] p vs M Nd Nn Wo Fp Bp M1 OM c H. cbn [ray_origin ray_dir] in *. unfold slant in H. cbn [ray_dir] in H. fold c in H. destruct (u_small prec U20) as [U0 U1]. assert (UM0 : 0 < u * M) by (apply Rmult_lt_0_compat; lra).
  destruct (ray_plane_iff prec emax U20 E20 o d p M Nd Nn Wo Fp Bp M1 OM) as (A & B & _). fold c in B. destruct (az_near prec emax U20 E20) as (_ & AZ). apply Rabs_le_inv in AZ.
  assert (KB : Rabs c <= 101 / 100). { destruct (unit_facts prec emax U20 d Nd) as (_ & _ & B1). destruct (unit_facts prec emax U20 (pl_normal p) Nn) as (_ & _ & B2). unfold c. eapply Rle_trans; [apply abs_dot_le; unfold values; rewrite !map_length, (proj1 Nd), (proj1 Nn); reflexivity|]. eapply Rle_trans; [apply Rle_abs|]. rewrite Rabs_mult. apply Rle_trans with (1001 / 1000 * (1001 / 1000)); [apply Rmult_le_compat; auto using Rabs_pos|lra]. }
  set (s := intersect_ray_plane (Ray o d) p) in *. assert (NS : BinarySingleNaN.is_nan s = true).
  { destruct A as [F|F]; [exfalso|exact F]. destruct (B F) as (B1 & B2). destruct H as [H|(t & T1 & T2)]; [lra|]. assert (CZ : c <> 0) by (intros Z; rewrite Z, Rabs_R0 in B1; lra). rewrite <- T1 in B2. replace (t * c / c) with t in B2 by (field; exact CZ).
    set (az := B2R (almost_zero : fl)) in *. assert (az * Rabs c <= az * (101 / 100)) by (apply Rmult_le_compat_l; lra). lra. }
  exists s. split; [|exact NS]. unfold intersect_ray_polygon_plane. fold s. assert (E : is_nan s = true) by (rewrite F_is_nan; exact NS). rewrite E. reflexivity.
Qed.
End FP.
