(** The point of intersection is reported to be in the plane (C104). *)
From Coq Require Import ZArith Reals List Lia Lra Bool Psatz.
From Flocq Require Import Core BinarySingleNaN.
From Verif Require Import Ops M_scalar M_vec M_mat M_geom M_intersect Inst_F S_vec S_rnd S_hit P_ord P_ieee P_vec P_fp P_fp2 P_fp3 P_fp4 P_fp5 P_hit P_hit2 P_hit3.
Import ListNotations.
Local Open Scope R_scope.

Section FP.
Variables prec emax : Z.
Context {Hprec : Prec_gt_0 prec} {Hmax : Prec_lt_emax prec emax}.
Notation fl := (binary_float prec emax).
Notation u := (unit_roundoff prec).
Notation eta := (underflow_error prec emax).
Notation Om := (bpow radix2 emax).
Hypothesis U20 : (20 <= prec)%Z.
Hypothesis E20 : (20 <= emax)%Z.

Lemma pse_near : is_finite (point_status_epsilon : fl) = true /\ Rabs (B2R (point_status_epsilon : fl) - / 10000) <= / 1000000.
Proof.
  destruct (u_small prec ltac:(assumption)) as (U0 & U1). destruct (eta_small prec emax ltac:(assumption)) as (E0 & E1).
  assert (P20 : (2 ^ 20 <= 2 ^ prec)%Z) by (apply Z.pow_le_mono_r; lia). 
  destruct (F_cst prec emax 1 ltac:(lia)) as [F1 V1]. destruct (F_cst prec emax 10000 ltac:(lia)) as [F2 V2].
  assert (B8 : 8 <= Om) by (change 8 with (bpow radix2 3); apply bpow_le; lia).
  destruct (div_ok prec emax _ (@cst _ (Fops prec emax _ _) 10000) F1) as (FD & d & e & Hd & He & ED).
  - rewrite V2. lra.
  - rewrite V1, V2. rewrite Rabs_pos_eq by lra. lra.
  - split; [exact FD|]. match type of ED with B2R ?x = _ => change (Rabs (B2R x - / 10000) <= / 1000000) end. rewrite ED, V1, V2.
    apply Rabs_le_inv in Hd, He. apply Rabs_le. lra.
Qed.
Lemma size_bound : forall (q n : list fl) A, length q = 3%nat -> length n = 3%nat -> Forall (fun x => Rabs x <= A) (values q) -> Forall (fun x => Rabs x <= 1001 / 1000) (values n) ->
  size_dot (values q) (values n) <= 3003 / 1000 * A.
Proof.
  intros q n A Lq Ln Bq Bn. destruct q as [|q0 [|q1 [|q2 [|]]]]; try discriminate. destruct n as [|n0 [|n1 [|n2 [|]]]]; try discriminate. unfold values in *. cbn [map] in *.
  inversion Bq as [|? ? A0 FA1]; subst. inversion FA1 as [|? ? A1 FA2]; subst. inversion FA2 as [|? ? A2 _]; subst.
  inversion Bn as [|? ? B0 FB1]; subst. inversion FB1 as [|? ? B1 FB2]; subst. inversion FB2 as [|? ? B2 _]; subst.
  assert (K : forall x y, Rabs x <= A -> Rabs y <= 1001 / 1000 -> Rabs x * Rabs y <= A * (1001 / 1000)) by (intros x y X Y; apply Rmult_le_compat; auto using Rabs_pos).
  assert (K0 := K _ _ A0 B0). assert (K1 := K _ _ A1 B1). assert (K2 := K _ _ A2 B2). unfold size_dot. cbn. lra.
Qed.
Lemma inside : forall (p : plane fl) (q : list fl) M S, nearly_unit (pl_normal p) -> is_finite (pl_dist p) = true -> Rabs (B2R (pl_dist p)) <= M -> 1 <= M -> 16384 * M <= Om ->
  bpow radix2 31 * (u * M) <= 1 -> length q = 3%nat -> all_finite q -> Forall (fun x => Rabs x <= 4510 * M) (values q) -> Rabs S <= 4500 * M ->
  Rabs (plane_distance p q) <= u * (74 * M + 18 * Rabs S) -> pl_point_status p q point_status_epsilon = Inside.
Proof.
  intros p q M S Hn Fp Bp M1 HM HT Lq Fq Bq BS H. destruct (u_small prec ltac:(assumption)) as (U0 & U1). destruct (eta_small prec emax ltac:(assumption)) as (E0 & E1). destruct pse_near as (FE & VE). apply Rabs_le_inv in VE.
  destruct (unit_facts prec emax ltac:(assumption) (pl_normal p) Hn) as (Bn & _). assert (Ln := proj1 Hn). assert (Fn := proj1 (proj2 Hn)).
  assert (SB := size_bound q (pl_normal p) _ Lq Ln Bq Bn). assert (S0 := size_dot_pos (values q) (values (pl_normal p))).
  assert (PS : 0 <= plane_size p q <= 13545 * M) by (unfold plane_size; assert (P := Rabs_pos (B2R (pl_dist p))); lra).
  set (t := u * M) in *. assert (T0 : u <= t) by (unfold t; nra). assert (T2 : t <= / 2147483648) by (cbn in HT; lra).
  assert (FW : few prec (length q + 1)) by (unfold few; rewrite Lq; simpl; lra).
  assert (EF := error_few prec emax (length q + 1) (plane_size p q) FW (proj1 PS)).
  destruct (point_status_ok prec emax p q point_status_epsilon) as (_ & _ & IN & _); auto; try lra; [congruence| |].
  { unfold no_overflow. rewrite Lq. cbn [Nat.add pow INR]. set (Z := plane_size p q) in *. replace ((1 + u) * ((1 + u) * ((1 + u) * ((1 + u) * 1)))) with ((1 + u) * (1 + u) * ((1 + u) * (1 + u))) by ring.
    assert (Q1 : (1 + u) * (1 + u) <= 1 + 3 * u) by nra. assert (Q0 : 1 <= (1 + u) * (1 + u)) by nra. assert (Q2 : (1 + u) * (1 + u) * ((1 + u) * (1 + u)) <= 1 + 7 * u) by nra.
    assert (Q3 : 1 <= (1 + u) * (1 + u) * ((1 + u) * (1 + u))) by nra. set (K := (1 + u) * (1 + u) * ((1 + u) * (1 + u))) in *. 
    assert (KK : K <= 1001 / 1000) by lra. assert (K * (Z + (1 + 1 + 1 + 1) * eta) <= 1001 / 1000 * (13546 * M)) by (apply Rmult_le_compat; lra). lra. }
  apply IN. rewrite Lq in *. cbn [Nat.add INR] in *. eapply Rle_trans; [exact H|].
  assert (X1 : u * (74 * M + 18 * Rabs S) <= 81074 * t) by (unfold t; assert (P := Rabs_pos S); nra).
  assert (X2 : u * plane_size p q <= 13545 * t) by (unfold t; nra). set (err := rounding_error prec emax 4 (plane_size p q)) in *. lra.
Qed.

Lemma ray_hit_inside : forall (r : ray fl) (p : plane fl) M, nearly_unit (ray_dir r) -> nearly_unit (pl_normal p) -> within M (ray_origin r) -> is_finite (pl_dist p) = true -> Rabs (B2R (pl_dist p)) <= M -> 1 <= M -> 16384 * M <= Om ->
  bpow radix2 31 * (u * M) <= 1 -> let s := intersect_ray_plane r p in is_finite s = true -> pl_point_status p (al_point_at_distance (ray_origin r) (ray_dir r) s) point_status_epsilon = Inside.
Proof.
  intros [o d] p M Hd Hn Ho Fp Bp M1 HM HT s. cbn [ray_dir ray_origin] in *. unfold s. rewrite (ray_unfold prec emax). destruct (sc_is_zero _ _) eqn:Z; [discriminate|].
  destruct (quot_ok prec emax ltac:(assumption) ltac:(assumption) o d p M Hd Hn Ho Fp Bp M1 HM Z) as (F & B & R). destruct (o_lt _ _); [discriminate|]. intros _.
  destruct (point_on prec emax ltac:(assumption) ltac:(assumption) o d p M Hd Hn Ho M1 HM _ F B R) as (Lq & Fq & Bq & Hq). now apply (inside p _ M (B2R (quot prec emax o d p))).
Qed.
Lemma line_hit_inside : forall (r : line fl) (p : plane fl) M, nearly_unit (ln_dir r) -> nearly_unit (pl_normal p) -> within M (ln_point r) -> is_finite (pl_dist p) = true -> Rabs (B2R (pl_dist p)) <= M -> 1 <= M -> 16384 * M <= Om ->
  bpow radix2 31 * (u * M) <= 1 -> let s := intersect_line_plane r p in is_finite s = true -> pl_point_status p (al_point_at_distance (ln_point r) (ln_dir r) s) point_status_epsilon = Inside.
Proof.
  intros [o d] p M Hd Hn Ho Fp Bp M1 HM HT s. cbn [ln_dir ln_point] in *. unfold s. rewrite (line_unfold prec emax). destruct (sc_is_zero _ _) eqn:Z; [discriminate|].
  destruct (quot_ok prec emax ltac:(assumption) ltac:(assumption) o d p M Hd Hn Ho Fp Bp M1 HM Z) as (F & B & R). intros _.
  destruct (point_on prec emax ltac:(assumption) ltac:(assumption) o d p M Hd Hn Ho M1 HM _ F B R) as (Lq & Fq & Bq & Hq). now apply (inside p _ M (B2R (quot prec emax o d p))).
Qed.
End FP.

(** A case in double precision: the ray from (0,0,-9) in the direction (3,4,12)/13 towards the plane at distance 2 with the same normal *)
Lemma all_fin : forall (f g : double -> R) (v w : list double), Forall2 (fun x y => near y (f x) (g x)) v w -> all_finite w.
Proof. intros f g v w C. induction C as [|x y a b N _ IH]; [apply Forall_nil|]. apply Forall_cons; [apply N|exact IH]. Qed.
Lemma dir_unit : nearly_unit (v_normalize v345 : list double).
Proof.
  split; [reflexivity|]. assert (C := normalize_ok 53 1024 v345 v345_finite (few_double 3 ltac:(lia)) v345_moderate). split.
  - exact (all_fin _ _ _ _ C).
  - eapply Rle_trans; [exact (normalize_norm 53 1024 v345 v345_finite (few_double 3 ltac:(lia)) v345_moderate)|]. destruct u_double as [U0 _]. simpl. lra.
Qed.
Definition case_origin : list double := [cst 0; cst 0; cst (-9)].
Definition case_plane : plane double := Pl (cst 2) (v_normalize v345).
Lemma case_within : within 16 case_origin.
Proof.
  destruct (cst_double 0 ltac:(cbn; lia)) as (F0 & V0). destruct (cst_double (-9) ltac:(cbn; lia)) as (F9 & V9).
  split; [reflexivity|]. split; [repeat (apply Forall_cons; [assumption|]); apply Forall_nil|]. unfold values, case_origin. cbn [map]. rewrite V0, V9.
  repeat (apply Forall_cons; [apply Rabs_le; lra|]). apply Forall_nil.
Qed.
Lemma case_dist : is_finite (pl_dist case_plane) = true /\ Rabs (B2R (pl_dist case_plane)) <= 16.
Proof. destruct (cst_double 2 ltac:(cbn; lia)) as (F0 & V0). cbn [pl_dist case_plane]. split; [exact F0|]. rewrite V0. apply Rabs_le. lra. Qed.
Lemma case_range : 16384 * 16 <= bpow radix2 1024 /\ bpow radix2 31 * (unit_roundoff 53 * 16) <= 1.
Proof.
  split; [replace (16384 * 16) with (bpow radix2 18) by (cbn; ring); apply bpow_le; lia|]. unfold unit_roundoff. replace 16 with (bpow radix2 4) by (cbn; ring). rewrite <- !bpow_plus. change 1 with (bpow radix2 0). apply bpow_le. lia.
Qed.
Lemma case_hit : is_finite (intersect_ray_plane (Ray case_origin (v_normalize v345)) case_plane) = true /\ is_finite (intersect_line_plane (Ln case_origin (v_normalize v345)) case_plane) = true.
Proof. split; vm_compute; reflexivity. Qed.
Lemma case_all : nearly_unit (v_normalize v345 : list double) /\ within 16 case_origin /\ (is_finite (pl_dist case_plane) = true /\ Rabs (B2R (pl_dist case_plane)) <= 16) /\ (16384 * 16 <= bpow radix2 1024 /\ bpow radix2 31 * (unit_roundoff 53 * 16) <= 1)
  /\ (is_finite (intersect_ray_plane (Ray case_origin (v_normalize v345)) case_plane) = true /\ is_finite (intersect_line_plane (Ln case_origin (v_normalize v345)) case_plane) = true)
  /\ pl_point_status case_plane (al_point_at_distance case_origin (v_normalize v345) (intersect_ray_plane (Ray case_origin (v_normalize v345)) case_plane)) point_status_epsilon = Inside.
Proof.
  split; [exact dir_unit|]. split; [exact case_within|]. split; [exact case_dist|]. split; [exact case_range|]. split; [exact case_hit|].
  exact (ray_hit_inside 53 1024 ltac:(lia) ltac:(lia) (Ray case_origin (v_normalize v345)) case_plane 16 dir_unit dir_unit case_within (proj1 case_dist) (proj2 case_dist) ltac:(lra) (proj1 case_range) (proj2 case_range) (proj1 case_hit)).
Qed.
