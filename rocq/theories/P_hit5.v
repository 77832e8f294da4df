(** Rounding errors of projections onto planes (C105). *)
From Coq Require Import ZArith Reals List Lia Lra Bool Psatz.
From Flocq Require Import Core BinarySingleNaN.
From Verif Require Import Ops M_scalar M_vec M_mat M_geom M_intersect Inst_F S_vec S_rnd S_hit P_ord P_ieee P_vec P_fp P_fp2 P_fp3 P_fp4 P_fp5 P_hit P_hit2 P_hit3 P_hit4.
Import ListNotations.
Local Open Scope R_scope.

Section FP.
Variables prec emax : Z.
Context {Hprec : Prec_gt_0 prec} {Hmax : Prec_lt_emax prec emax}.
Notation fl := (binary_float prec emax).
Notation u := (unit_roundoff prec).
Notation eta := (underflow_error prec emax).
Notation Om := (bpow radix2 emax).
Hypothesis U20 : (20 <= prec)%Z.
Hypothesis E20 : (20 <= emax)%Z.

Lemma project_near : forall (p : plane fl) (x : list fl) M, nearly_unit (pl_normal p) -> within M x -> is_finite (pl_dist p) = true -> Rabs (B2R (pl_dist p)) <= M -> 1 <= M -> 16 * M <= Om ->
  Forall2 (fun q y => near q y (24 * (u * M)) /\ Rabs y <= 502 / 100 * M) (pl_project_point p x) (map2 (fun a b => a - plane_distance p x * b) (values x) (values (pl_normal p))).
Proof.
  intros p x M Hn Hx Fp Bp M1 HM. destruct (u_small prec ltac:(assumption)) as (U0 & U1). destruct (eta_small prec emax ltac:(assumption)) as (E0 & E1).
  destruct (unit_facts prec emax ltac:(assumption) (pl_normal p) Hn) as (Bn & _). destruct Hn as (Ln & Fn & _), Hx as (Lx & Fx & Bx).
  assert (K4 := dot_bound prec emax x (pl_normal p) _ _ Lx Ln Bx Bn).
  set (t := u * M). assert (T0 : u <= t) by (unfold t; nra). assert (T1 : t <= M / 1000000) by (unfold t; nra).
  assert (NK : near (v_dot x (pl_normal p)) (rdot (values x) (values (pl_normal p))) (1003 / 100 * t)).
  { eapply near_le; [apply (dot3_near prec emax x (pl_normal p) (values x) (values (pl_normal p)) 0 0 M (1001 / 1000)); auto using exact_all; try lra; try nra|].
    replace (10 * u * ((M + 0) * (1001 / 1000 + 0))) with (1001 / 100 * t) by (unfold t; field). lra. }
  unfold plane_distance, pl_project_point. set (K := rdot (values x) (values (pl_normal p))) in *. set (k := v_dot x (pl_normal p)) in *. set (D := B2R (pl_dist p)) in *.
  assert (ST : forall a b : fl, is_finite a = true -> is_finite b = true -> Rabs (B2R a) <= M -> Rabs (B2R b) <= 1001 / 1000 ->
    near (o_add (o_sub a (o_mul b k)) (o_mul b (pl_dist p))) (B2R a - (K - D) * B2R b) (24 * t) /\ Rabs (B2R a - (K - D) * B2R b) <= 502 / 100 * M).
  { intros a b Fa Fb Ba Bb.
    assert (UM : u * M = t) by reflexivity. assert (UT0 : 0 <= u * t) by nra. assert (UT : u * t <= t / 1000000) by nra.
    assert (KB : Rabs (B2R b * K) <= 301 / 100 * M) by (rewrite Rabs_mult; apply Rle_trans with (1001 / 1000 * (3 * (M * (1001 / 1000)))); [apply Rmult_le_compat; auto using Rabs_pos|lra]).
    assert (DB : Rabs (B2R b * D) <= 101 / 100 * M) by (rewrite Rabs_mult; apply Rle_trans with (1001 / 1000 * M); [apply Rmult_le_compat; auto using Rabs_pos|lra]).
    assert (N1 : near (o_mul b k) (B2R b * K) (132 / 10 * t)).
    { eapply near_le; [apply (near_mul prec emax b k (B2R b) K 0 (1003 / 100 * t) (1001 / 1000) (3 * (M * (1001 / 1000)))); auto using near_exact; try nra|]. nra. }
    assert (B1 : Rabs (B2R a - B2R b * K) <= 401 / 100 * M) by (apply Rabs_le_inv in Ba, KB; apply Rabs_le; lra).
    assert (N2 : near (o_sub a (o_mul b k)) (B2R a - B2R b * K) (173 / 10 * t)).
    { eapply near_le; [apply (near_sub prec emax a (o_mul b k) (B2R a) (B2R b * K) 0 (132 / 10 * t) (401 / 100 * M)); auto using near_exact; try nra|]. nra. }
    assert (N3 : near (o_mul b (pl_dist p)) (B2R b * D) (11 / 10 * t)).
    { eapply near_le; [apply (near_mul prec emax b (pl_dist p) (B2R b) D 0 0 (1001 / 1000) M); auto using near_exact; try nra; exact (near_exact prec emax _ Fp)|]. nra. }
    assert (B2 : Rabs ((B2R a - B2R b * K) + B2R b * D) <= 502 / 100 * M) by (apply Rabs_le_inv in B1, DB; apply Rabs_le; lra).
    replace (B2R a - (K - D) * B2R b) with ((B2R a - B2R b * K) + B2R b * D) by ring. split; [|exact B2].
    eapply near_le; [apply (near_add prec emax _ _ _ _ _ _ _ N2 N3 B2); nra|]. nra. }
  clearbody K k D. destruct x as [|x0 [|x1 [|x2 [|]]]]; try discriminate. destruct (pl_normal p) as [|n0 [|n1 [|n2 [|]]]]; try discriminate.
  inversion Fx as [|? ? G0 Fx']; subst. inversion Fx' as [|? ? G1 Fx'']; subst. inversion Fx'' as [|? ? G2 _]; subst.
  inversion Fn as [|? ? K0 Fn']; subst. inversion Fn' as [|? ? K1 Fn'']; subst. inversion Fn'' as [|? ? K2 _]; subst.
  unfold values in *. cbn [map map2] in *.
  inversion Bx as [|? ? H0 Bo1]; subst. inversion Bo1 as [|? ? H1 Bo2]; subst. inversion Bo2 as [|? ? H2 _]; subst.
  inversion Bn as [|? ? N0 Bn1]; subst. inversion Bn1 as [|? ? N1 Bn2]; subst. inversion Bn2 as [|? ? N2 _]; subst.
  change (v_add (v_sub [x0; x1; x2] (v_scale_l k [n0; n1; n2])) (v_scale_l (pl_dist p) [n0; n1; n2]))
    with [o_add (o_sub x0 (o_mul n0 k)) (o_mul n0 (pl_dist p)); o_add (o_sub x1 (o_mul n1 k)) (o_mul n1 (pl_dist p)); o_add (o_sub x2 (o_mul n2 k)) (o_mul n2 (pl_dist p))].
  apply Forall2_cons; [exact (ST _ _ G0 K0 H0 N0)|]. apply Forall2_cons; [exact (ST _ _ G1 K1 H1 N1)|]. apply Forall2_cons; [exact (ST _ _ G2 K2 H2 N2)|]. apply Forall2_nil.
Qed.

Lemma project_ok : forall (p : plane fl) (x : list fl) M, nearly_unit (pl_normal p) -> within M x -> is_finite (pl_dist p) = true -> Rabs (B2R (pl_dist p)) <= M -> 1 <= M -> 16 * M <= Om ->
  let q := pl_project_point p x in within (503 / 100 * M) q
  /\ Forall2 (fun y z => Rabs (B2R y - z) <= 24 * (u * M)) q (map2 (fun a b => a - plane_distance p x * b) (values x) (values (pl_normal p)))
  /\ Rabs (plane_distance p q) <= 210 * (u * M).
Proof.
  intros p x M Hn Hx Fp Bp M1 HM q. destruct (u_small prec ltac:(assumption)) as (U0 & U1).
  assert (N := project_near p x M Hn Hx Fp Bp M1 HM). fold q in N. destruct (unit_facts prec emax ltac:(assumption) (pl_normal p) Hn) as (Bn & Qn & _). destruct Hn as (Ln & Fn & _), Hx as (Lx & Fx & Bx).
  assert (K4 := dot_bound prec emax x (pl_normal p) _ _ Lx Ln Bx Bn).
  set (t := u * M) in *. assert (T0 : u <= t) by (unfold t; nra). assert (T1 : t <= M / 1000000) by (unfold t; nra).
  assert (HB : Rabs (plane_distance p x) <= 401 / 100 * M) by (unfold plane_distance; apply Rabs_le_inv in K4, Bp; apply Rabs_le; lra).
  assert (HU : Rabs (plane_distance p x) * (33 * u) <= 133 * t) by (unfold t; nra).
  unfold plane_distance at 2. set (h := plane_distance p x) in *. assert (Eh : rdot (values x) (values (pl_normal p)) - B2R (pl_dist p) - h = 0) by (unfold h, plane_distance; ring). set (D := B2R (pl_dist p)) in *. clearbody h D. clearbody q.
  destruct x as [|x0 [|x1 [|x2 [|]]]]; try discriminate. destruct (pl_normal p) as [|n0 [|n1 [|n2 [|]]]]; try discriminate.
  unfold within, all_finite, values in *. cbn [map map2] in *.
  inversion N as [|q0 ? l ? ((F0 & P0) & S0) Nq1]; subst. inversion Nq1 as [|q1 ? l1 ? ((F1 & P1) & S1) Nq2]; subst. inversion Nq2 as [|q2 ? l2 ? ((F2 & P2) & S2) Nq3]; subst. inversion Nq3; subst.
  inversion Bn as [|? ? N0 Bn1]; subst. inversion Bn1 as [|? ? N1 Bn2]; subst. inversion Bn2 as [|? ? N2 _]; subst.
  split; [|split].
  - split; [reflexivity|]. split; [repeat (apply Forall_cons; [assumption|]); apply Forall_nil|]. cbn [map].
    assert (V : forall a b, Rabs (a - b) <= 24 * t -> Rabs b <= 502 / 100 * M -> Rabs a <= 503 / 100 * M) by (intros a b A B; apply Rabs_le_inv in A, B; apply Rabs_le; lra).
    apply Forall_cons; [exact (V _ _ P0 S0)|]. apply Forall_cons; [exact (V _ _ P1 S1)|]. apply Forall_cons; [exact (V _ _ P2 S2)|]. apply Forall_nil.
  - apply Forall2_cons; [exact P0|]. apply Forall2_cons; [exact P1|]. apply Forall2_cons; [exact P2|]. apply Forall2_nil.
  - cbn [map].
    assert (KM : forall x y, Rabs x <= 24 * t -> Rabs y <= 1001 / 1000 -> Rabs (x * y) <= 24 * t * (1001 / 1000)) by (intros a b X Y; rewrite Rabs_mult; apply Rmult_le_compat; auto using Rabs_pos).
    assert (K0 := KM _ _ P0 N0). assert (K1 := KM _ _ P1 N1). assert (K2 := KM _ _ P2 N2).
    assert (HQ : Rabs (h * (rdot [B2R n0; B2R n1; B2R n2] [B2R n0; B2R n1; B2R n2] - 1)) <= 133 * t).
    { rewrite Rabs_mult. eapply Rle_trans; [|exact HU]. apply Rmult_le_compat_l; [apply Rabs_pos|exact Qn]. }
    unfold rdot in *. cbn in HQ, Eh |- *. apply Rabs_le_inv in K0, K1, K2, HQ. apply Rabs_le. lra.
Qed.
(** A bound for the computed distance of a point *)
Lemma inside_near : forall (p : plane fl) (q : list fl) M A, nearly_unit (pl_normal p) -> is_finite (pl_dist p) = true -> Rabs (B2R (pl_dist p)) <= M -> 1 <= M -> 32 * M <= Om ->
  within (503 / 100 * M) q -> Rabs (plane_distance p q) <= A -> A + 140 * (u * M) <= 99 / 1000000 -> pl_point_status p q point_status_epsilon = Inside.
Proof.
  intros p q M A Hn Fp Bp M1 HM (Lq & Fq & Bq) H HA. destruct (u_small prec ltac:(assumption)) as (U0 & U1). destruct (eta_small prec emax ltac:(assumption)) as (E0 & E1). destruct (pse_near prec emax ltac:(assumption) ltac:(assumption)) as (FE & VE). apply Rabs_le_inv in VE.
  destruct (unit_facts prec emax ltac:(assumption) (pl_normal p) Hn) as (Bn & _). assert (Ln := proj1 Hn). assert (Fn := proj1 (proj2 Hn)).
  assert (SB := size_bound prec emax q (pl_normal p) _ Lq Ln Bq Bn). assert (S0 := size_dot_pos (values q) (values (pl_normal p))).
  assert (PS : 0 <= plane_size p q <= 162 / 10 * M) by (unfold plane_size; assert (P := Rabs_pos (B2R (pl_dist p))); lra).
  set (t := u * M) in *. assert (T0 : u <= t) by (unfold t; nra).
  assert (FW : few prec (length q + 1)) by (unfold few; rewrite Lq; simpl; lra).
  assert (EF := error_few prec emax (length q + 1) (plane_size p q) FW (proj1 PS)).
  destruct (point_status_ok prec emax p q point_status_epsilon) as (_ & _ & IN & _); auto; try lra; [congruence| |].
  { unfold no_overflow. rewrite Lq. cbn [Nat.add pow INR]. set (Z := plane_size p q) in *. replace ((1 + u) * ((1 + u) * ((1 + u) * ((1 + u) * 1)))) with ((1 + u) * (1 + u) * ((1 + u) * (1 + u))) by ring.
    assert (Q1 : (1 + u) * (1 + u) <= 1 + 3 * u) by nra. assert (Q0 : 1 <= (1 + u) * (1 + u)) by nra. assert (Q2 : (1 + u) * (1 + u) * ((1 + u) * (1 + u)) <= 1 + 7 * u) by nra.
    assert (Q3 : 1 <= (1 + u) * (1 + u) * ((1 + u) * (1 + u))) by nra. set (K := (1 + u) * (1 + u) * ((1 + u) * (1 + u))) in *. 
    assert (KK : K <= 1001 / 1000) by lra. assert (K * (Z + (1 + 1 + 1 + 1) * eta) <= 1001 / 1000 * (163 / 10 * M)) by (apply Rmult_le_compat; lra). lra. }
  apply IN. rewrite Lq in *. cbn [Nat.add INR] in *. eapply Rle_trans; [exact H|].
  assert (X2 : u * plane_size p q <= 162 / 10 * t) by (unfold t; nra). set (err := rounding_error prec emax 4 (plane_size p q)) in *. lra.
Qed.
Lemma project_inside : forall (p : plane fl) (x : list fl) M, nearly_unit (pl_normal p) -> within M x -> is_finite (pl_dist p) = true -> Rabs (B2R (pl_dist p)) <= M -> 1 <= M -> 32 * M <= Om ->
  bpow radix2 22 * (u * M) <= 1 -> pl_point_status p (pl_project_point p x) point_status_epsilon = Inside.
Proof.
  intros p x M Hn Hx Fp Bp M1 HM HT. destruct (project_ok p x M Hn Hx Fp Bp M1 ltac:(lra)) as (W & _ & H). apply (inside_near p _ M _ Hn Fp Bp M1 HM W H). cbn in HT. lra.
Qed.
Lemma project_twice : forall (p : plane fl) (x : list fl) M, nearly_unit (pl_normal p) -> within M x -> is_finite (pl_dist p) = true -> Rabs (B2R (pl_dist p)) <= M -> 1 <= M -> 128 * M <= Om ->
  let q := pl_project_point p x in Forall2 (fun a b => Rabs (B2R a - B2R b) <= 340 * (u * M)) (pl_project_point p q) q.
Proof.
  intros p x M Hn Hx Fp Bp M1 HM q. destruct (u_small prec ltac:(assumption)) as (U0 & U1). destruct (project_ok p x M Hn Hx Fp Bp M1 ltac:(lra)) as (W & _ & H). fold q in W, H.
  destruct (project_ok p q (503 / 100 * M) Hn W Fp ltac:(lra) ltac:(lra) ltac:(lra)) as (W' & H' & _).
  destruct (unit_facts prec emax ltac:(assumption) (pl_normal p) Hn) as (Bn & _).
  set (t := u * M) in *. replace (u * (503 / 100 * M)) with (503 / 100 * t) in H' by (unfold t; field). assert (T0 : 0 <= t) by (unfold t; nra).
  set (h := plane_distance p q) in *. set (q' := pl_project_point p q) in *. assert (Ln := proj1 Hn). assert (Lq := proj1 W). clearbody h q q'. destruct q as [|x0 [|x1 [|x2 [|]]]]; try discriminate. destruct (pl_normal p) as [|n0 [|n1 [|n2 [|]]]]; try discriminate.
  unfold values in *. cbn [map map2] in *.
  inversion H' as [|q0 ? l ? P0 Nq1]; subst. inversion Nq1 as [|q1 ? l1 ? P1 Nq2]; subst. inversion Nq2 as [|q2 ? l2 ? P2 Nq3]; subst. inversion Nq3; subst.
  inversion Bn as [|? ? N0 Bn1]; subst. inversion Bn1 as [|? ? N1 Bn2]; subst. inversion Bn2 as [|? ? N2 _]; subst.
  assert (KM : forall a b y, Rabs (a - (b - h * y)) <= 24 * (503 / 100 * t) -> Rabs y <= 1001 / 1000 -> Rabs (a - b) <= 340 * t).
  { intros a b y X Y. assert (HY : Rabs (h * y) <= 210 * t * (1001 / 1000)) by (rewrite Rabs_mult; apply Rmult_le_compat; auto using Rabs_pos). apply Rabs_le_inv in X, HY. apply Rabs_le. lra. }
  apply Forall2_cons; [exact (KM _ _ _ P0 N0)|]. apply Forall2_cons; [exact (KM _ _ _ P1 N1)|]. apply Forall2_cons; [exact (KM _ _ _ P2 N2)|]. apply Forall2_nil.
Qed.
(** Projection along a direction *)
Lemma project_dir_unfold : forall (p : plane fl) (x d : list fl), pl_project_point_dir p x d =
  if sc_is_zero (v_dot d (pl_normal p)) almost_zero then v_nan (length x) else al_point_at_distance x d (intersect_line_plane (Ln x d) p).
Proof. intros. unfold pl_project_point_dir, intersect_line_plane. cbn [ln_dir ln_point]. destruct (sc_is_zero _ _); reflexivity. Qed.
Lemma project_dir : forall (p : plane fl) (x d : list fl) M, nearly_unit d -> nearly_unit (pl_normal p) -> within M x -> is_finite (pl_dist p) = true -> Rabs (B2R (pl_dist p)) <= M -> 1 <= M -> 16384 * M <= Om ->
  let q := pl_project_point_dir p x d in let c := rdot (values d) (values (pl_normal p)) in
  (all_finite q /\ length q = 3%nat /\ Rabs (plane_distance p q) <= 82000 * (u * M) \/ q = v_nan 3)
  /\ (B2R (almost_zero : fl) + 11 * u < Rabs c -> all_finite q) /\ (Rabs c < B2R (almost_zero : fl) - 11 * u -> q = v_nan 3)
  /\ (bpow radix2 31 * (u * M) <= 1 -> all_finite q -> pl_point_status p q point_status_epsilon = Inside).
Proof.
  intros p x d M Hd Hn Hx Fp Bp M1 HM q c. unfold q. rewrite project_dir_unfold. destruct (u_small prec ltac:(assumption)) as (U0 & U1). rewrite (proj1 Hx). unfold c. clear q c.
  destruct (zero_test prec emax ltac:(assumption) ltac:(assumption) d p Hd Hn) as (Z1 & Z2).
  destruct (line_plane_iff prec emax ltac:(assumption) ltac:(assumption) x d p M Hd Hn Hx Fp Bp M1 HM) as (_ & I1 & I2). destruct (sc_is_zero _ _) eqn:Z.
  - specialize (Z1 eq_refl). split; [now right|]. split; [lra|]. split; [auto|]. intros _ A. inversion A; discriminate.
  - destruct (Z2 eq_refl) as (Z3 & _).
    assert (FI : is_finite (intersect_line_plane (Ln x d) p) = true) by (rewrite (line_unfold prec emax), Z; apply (quot_ok prec emax ltac:(assumption) ltac:(assumption) x d p M Hd Hn Hx Fp Bp M1 HM Z)).
    destruct (line_plane_hit prec emax ltac:(assumption) ltac:(assumption) x d p M Hd Hn Hx Fp Bp M1 HM FI) as (B & _ & Lq & Fq & H).
    split; [left|]. { split; [exact Fq|]. split; [exact Lq|]. eapply Rle_trans; [exact H|]. assert (P := Rabs_pos (B2R (intersect_line_plane (Ln x d) p))). nra. }
    split; [auto|]. split; [intros; lra|]. intros HT _. apply (line_hit_inside prec emax ltac:(assumption) ltac:(assumption) (Ln x d) p M); auto.
Qed.
End FP.

Lemma case_project : nearly_unit (pl_normal case_plane) /\ within 16 case_origin /\ bpow radix2 22 * (unit_roundoff 53 * 16) <= 1
  /\ pl_point_status case_plane case_origin point_status_epsilon = Below
  /\ pl_point_status case_plane (pl_project_point case_plane case_origin) point_status_epsilon = Inside
  /\ pl_point_status case_plane (pl_project_point_dir case_plane case_origin [cst 0; cst 0; cst 1]) point_status_epsilon = Inside.
Proof.
  split; [exact dir_unit|]. split; [exact case_within|]. split.
  { unfold unit_roundoff. replace 16 with (bpow radix2 4) by (cbn; ring). rewrite <- !bpow_plus. change 1 with (bpow radix2 0). apply bpow_le. lia. }
  split; [vm_compute; reflexivity|]. split; vm_compute; reflexivity.
Qed.
