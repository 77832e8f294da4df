(** Rounding errors of ray-plane and line-plane intersections (C104). *)
From Coq Require Import ZArith Reals List Lia Lra Bool Psatz.
From Flocq Require Import Core BinarySingleNaN.
From Verif Require Import Ops M_scalar M_vec M_mat M_geom M_intersect Inst_F S_vec S_rnd S_hit P_ord P_ieee P_vec P_fp P_fp3 P_fp4 P_hit P_hit2.
Import ListNotations.
Local Open Scope R_scope.

Section FP.
Variables prec emax : Z.
Context {Hprec : Prec_gt_0 prec} {Hmax : Prec_lt_emax prec emax}.
Notation fl := (binary_float prec emax).
Notation u := (unit_roundoff prec).
Notation eta := (underflow_error prec emax).
Notation Om := (bpow radix2 emax).
Hypothesis U20 : (20 <= prec)%Z.
Hypothesis E20 : (20 <= emax)%Z.

Lemma az_near : is_finite (almost_zero : fl) = true /\ Rabs (B2R (almost_zero : fl) - / 1000) <= / 100000.
Proof.
  destruct (u_small prec ltac:(assumption)) as (U0 & U1). destruct (eta_small prec emax ltac:(assumption)) as (E0 & E1).
  assert (P20 : (2 ^ 20 <= 2 ^ prec)%Z) by (apply Z.pow_le_mono_r; lia). 
  destruct (F_cst prec emax 1 ltac:(lia)) as [F1 V1]. destruct (F_cst prec emax 1000 ltac:(lia)) as [F2 V2].
  assert (B8 : 8 <= Om) by (change 8 with (bpow radix2 3); apply bpow_le; lia).
  destruct (div_ok prec emax _ (@cst _ (Fops prec emax _ _) 1000) F1) as (FD & d & e & Hd & He & ED).
  - rewrite V2. lra.
  - rewrite V1, V2. rewrite Rabs_pos_eq by lra. lra.
  - split; [exact FD|]. match type of ED with B2R ?x = _ => change (Rabs (B2R x - / 1000) <= / 100000) end. rewrite ED, V1, V2.
    apply Rabs_le_inv in Hd, He. apply Rabs_le. lra.
Qed.
Lemma opp_F : forall x : fl, is_finite x = true -> is_finite (o_neg x) = true /\ B2R (o_neg x) = - B2R x.
Proof. intros x F. change (o_neg x) with (Bopp x). rewrite is_finite_Bopp, B2R_Bopp. auto. Qed.
Lemma nan_F : BinarySingleNaN.is_nan (o_nan : fl) = true.
Proof. reflexivity. Qed.
Lemma nan_not_finite : forall x : fl, BinarySingleNaN.is_nan x = true -> is_finite x = false.
Proof. intros [| | |]; cbn; auto; discriminate. Qed.

Section Plane.
Variables (o d : list fl) (p : plane fl) (M : R).
Hypothesis Hd : nearly_unit d.
Hypothesis Hn : nearly_unit (pl_normal p).
Hypothesis Ho : within M o.
Hypothesis Fp : is_finite (pl_dist p) = true.
Hypothesis Bp : Rabs (B2R (pl_dist p)) <= M.
Hypothesis M1 : 1 <= M.
Hypothesis HM : 16384 * M <= Om.
Notation c := (rdot (values d) (values (pl_normal p))).
Notation h := (plane_distance p o).
Notation az := (B2R (almost_zero : fl)).
Definition quot : fl := o_div (v_dot (v_sub (v_scale (pl_normal p) (pl_dist p)) o) (pl_normal p)) (v_dot d (pl_normal p)).

Lemma zero_test : (sc_is_zero (v_dot d (pl_normal p)) almost_zero = true -> Rabs c <= az + 11 * u)
  /\ (sc_is_zero (v_dot d (pl_normal p)) almost_zero = false -> az - 11 * u <= Rabs c /\ az < Rabs (B2R (v_dot d (pl_normal p)))).
Proof.
  destruct az_near as (Fa & Va). apply Rabs_le_inv in Va. destruct (den_near prec emax ltac:(assumption) ltac:(assumption) d (pl_normal p) Hd Hn) as (Fd & Vd).
  rewrite (is_zero_F prec emax) by (auto; lra). set (D := B2R (v_dot d (pl_normal p))) in *.
  assert (T := Rabs_triang_inv D c). assert (T' := Rabs_triang_inv c D). rewrite (Rabs_minus_sym c D) in T'.
  destruct (Rle_bool_spec (Rabs D) az); split; intros E; try discriminate; lra.
Qed.
Lemma quot_ok : sc_is_zero (v_dot d (pl_normal p)) almost_zero = false ->
  is_finite quot = true /\ Rabs (B2R quot) <= 4500 * M /\ Rabs (B2R quot * c + h) <= u * (70 * M + 11 * Rabs (B2R quot)).
Proof.
  intros Z. destruct zero_test as (_ & Z'). specialize (Z' Z). destruct az_near as (Fa & Va). apply Rabs_le_inv in Va.
  destruct (unit_facts prec emax ltac:(assumption) d Hd) as (Bd & _). destruct (unit_facts prec emax ltac:(assumption) (pl_normal p) Hn) as (Bn & _).
  assert (Nn := num_near prec emax ltac:(assumption) ltac:(assumption) o (pl_normal p) (pl_dist p) M Ho Hn Fp Bp M1 HM). assert (Nd := den_near prec emax ltac:(assumption) ltac:(assumption) d (pl_normal p) Hd Hn).
  destruct Ho as (Lo & Fo & Bo). assert (Ld := proj1 Hd). assert (Ln := proj1 Hn).
  assert (C4 := dot_bound prec emax d (pl_normal p) _ _ Ld Ln Bd Bn). assert (G4 := dot_bound prec emax o (pl_normal p) _ _ Lo Ln Bo Bn).
  assert (Q := quotient_ok prec emax ltac:(assumption) ltac:(assumption) _ _ _ _ M Nn Nd). unfold quot. unfold plane_distance. set (q := B2R (o_div _ _)) in *. set (od := rdot (values o) (values (pl_normal p))) in *.
  replace (q * c + (od - B2R (pl_dist p))) with (q * c - (B2R (pl_dist p) - od)) by ring. apply Q; auto; [|lra|lra].
  unfold Rminus. eapply Rle_trans; [apply Rabs_triang|]. rewrite Rabs_Ropp. lra.
Qed.
Lemma point_on : forall s : fl, is_finite s = true -> Rabs (B2R s) <= 4500 * M -> Rabs (B2R s * c + h) <= u * (70 * M + 11 * Rabs (B2R s)) ->
  let q := al_point_at_distance o d s in length q = 3%nat /\ all_finite q /\ Forall (fun x => Rabs x <= 4510 * M) (values q) /\ Rabs (plane_distance p q) <= u * (74 * M + 18 * Rabs (B2R s)).
Proof.
  intros s Fs Bs Rs q. destruct (u_small prec ltac:(assumption)) as (U0 & U1). destruct (unit_facts prec emax ltac:(assumption) (pl_normal p) Hn) as (Bn & _). destruct (unit_facts prec emax ltac:(assumption) d Hd) as (Bd & _).
  destruct (point_near prec emax ltac:(assumption) ltac:(assumption) o d s M Ho Hd Fs Bs M1 HM) as (Lq & Fq & Nq). fold q in Lq, Fq, Nq. split; [exact Lq|]. split; [exact Fq|].
  unfold plane_distance in *. destruct Ho as (Lo & _ & Bo). assert (Ld := proj1 Hd). assert (Ln := proj1 Hn). set (n := pl_normal p) in *. set (D := B2R (pl_dist p)) in *. set (S := B2R s) in *. assert (S0 := Rabs_pos S).
  set (e := u * (101 / 100 * M + 21 / 10 * Rabs S)) in *. clearbody q n S. clear - U0 U1 Lq Lo Ld Ln Nq Rs Bn Bd Bo Bs M1 S0 e.
  destruct q as [|q0 [|q1 [|q2 [|]]]]; try discriminate. destruct o as [|o0 [|o1 [|o2 [|]]]]; try discriminate. destruct d as [|d0 [|d1 [|d2 [|]]]]; try discriminate. destruct n as [|n0 [|n1 [|n2 [|]]]]; try discriminate.
  unfold values in *. cbn [map map2 rdot] in *.
  inversion Nq as [|? ? ? ? (_ & P0) Nq1]; subst. inversion Nq1 as [|? ? ? ? (_ & P1) Nq2]; subst. inversion Nq2 as [|? ? ? ? (_ & P2) _]; subst.
  inversion Bn as [|? ? N0 Bn1]; subst. inversion Bn1 as [|? ? N1 Bn2]; subst. inversion Bn2 as [|? ? N2 _]; subst.
  inversion Bd as [|? ? D0 Bd1]; subst. inversion Bd1 as [|? ? D1 Bd2]; subst. inversion Bd2 as [|? ? D2 _]; subst.
  inversion Bo as [|? ? O0 Bo1]; subst. inversion Bo1 as [|? ? O1 Bo2]; subst. inversion Bo2 as [|? ? O2 _]; subst.
  assert (EM : e <= M). { unfold e. nra. }
  assert (SZ : forall x a b, Rabs (x - (a + b * S)) <= e -> Rabs a <= M -> Rabs b <= 1001 / 1000 -> Rabs x <= 4510 * M).
  { intros x a b X A B. assert (BS : Rabs (b * S) <= 1001 / 1000 * (4500 * M)) by (rewrite Rabs_mult; apply Rmult_le_compat; auto using Rabs_pos).
    apply Rabs_le_inv in X, A, BS. apply Rabs_le. lra. }
  split. { apply Forall_cons; [exact (SZ _ _ _ P0 O0 D0)|]. apply Forall_cons; [exact (SZ _ _ _ P1 O1 D1)|]. apply Forall_cons; [exact (SZ _ _ _ P2 O2 D2)|apply Forall_nil]. }
  assert (KM : forall x y, Rabs x <= e -> Rabs y <= 1001 / 1000 -> Rabs (x * y) <= e * (1001 / 1000)) by (intros x y X Y; rewrite Rabs_mult; apply Rmult_le_compat; auto using Rabs_pos).
  assert (K0 := KM _ _ P0 N0). assert (K1 := KM _ _ P1 N1). assert (K2 := KM _ _ P2 N2). unfold e in K0, K1, K2.
  assert (EU : u * (74 * M + 18 * Rabs S) = u * (70 * M + 11 * Rabs S) + u * (4 * M + 7 * Rabs S)) by ring. rewrite EU.
  assert (EE : 3 * (u * (101 / 100 * M + 21 / 10 * Rabs S) * (1001 / 1000)) <= u * (4 * M + 7 * Rabs S)) by nra.
  unfold rdot in *. cbn [map2 fold_right map combine fold_left] in *. apply Rabs_le_inv in K0, K1, K2, Rs. apply Rabs_le. lra.
Qed.

Lemma ray_unfold : intersect_ray_plane (Ray o d) p = if sc_is_zero (v_dot d (pl_normal p)) almost_zero then o_nan else if o_lt quot (o_neg almost_zero) then o_nan else quot.
Proof. reflexivity. Qed.
Lemma line_unfold : intersect_line_plane (Ln o d) p = if sc_is_zero (v_dot d (pl_normal p)) almost_zero then o_nan else quot.
Proof. reflexivity. Qed.
Lemma sign_test : is_finite quot = true -> o_lt quot (o_neg almost_zero) = Rlt_bool (B2R quot) (- az).
Proof. intros F. destruct az_near as (Fa & _). destruct (opp_F almost_zero Fa) as (Fo & Vo). change (o_lt quot (o_neg almost_zero)) with (Bltb quot (o_neg almost_zero)). rewrite (Flt prec emax) by assumption. now rewrite Vo. Qed.

Lemma ray_plane_hit : let s := intersect_ray_plane (Ray o d) p in let q := al_point_at_distance o d s in is_finite s = true ->
  - az <= B2R s <= 4500 * M /\ Rabs (B2R s * c + h) <= u * (70 * M + 11 * Rabs (B2R s))
  /\ length q = 3%nat /\ all_finite q /\ Rabs (plane_distance p q) <= u * (74 * M + 18 * Rabs (B2R s)).
Proof.
  intros s. unfold s. rewrite ray_unfold. destruct (sc_is_zero _ _) eqn:Z; [discriminate|]. destruct (quot_ok Z) as (F & B & R). rewrite (sign_test F). destruct (Rlt_bool_spec (B2R quot) (- az)) as [L|L]; [discriminate|].
  intros _. destruct (point_on quot F B R) as (Lq & Fq & _ & Hq). split; [|split; [exact R|]; split; [exact Lq|]; split; [exact Fq|exact Hq]].
  split; [exact L|]. eapply Rle_trans; [apply Rle_abs|exact B].
Qed.
Lemma line_plane_hit : let s := intersect_line_plane (Ln o d) p in let q := al_point_at_distance o d s in is_finite s = true ->
  Rabs (B2R s) <= 4500 * M /\ Rabs (B2R s * c + h) <= u * (70 * M + 11 * Rabs (B2R s))
  /\ length q = 3%nat /\ all_finite q /\ Rabs (plane_distance p q) <= u * (74 * M + 18 * Rabs (B2R s)).
Proof.
  intros s. unfold s. rewrite line_unfold. destruct (sc_is_zero _ _) eqn:Z; [discriminate|]. destruct (quot_ok Z) as (F & B & R).
  intros _. destruct (point_on quot F B R) as (Lq & Fq & _ & Hq). split; [exact B|]. split; [exact R|]. split; [exact Lq|]. split; [exact Fq|exact Hq].
Qed.
Lemma line_plane_iff : let s := intersect_line_plane (Ln o d) p in
  (is_finite s = true \/ BinarySingleNaN.is_nan s = true)
  /\ (is_finite s = true -> az - 11 * u <= Rabs c) /\ (az + 11 * u < Rabs c -> is_finite s = true).
Proof.
  intros s. unfold s. rewrite line_unfold. destruct zero_test as (Z1 & Z2). destruct (sc_is_zero _ _) eqn:Z.
  - split; [right; apply nan_F|]. split; [discriminate|]. intros H. specialize (Z1 eq_refl). lra.
  - destruct (quot_ok Z) as (F & _). split; [now left|]. split; [|auto]. intros _. apply Z2. reflexivity.
Qed.
Lemma ray_plane_iff : let s := intersect_ray_plane (Ray o d) p in
  (is_finite s = true \/ BinarySingleNaN.is_nan s = true)
  /\ (is_finite s = true -> az - 11 * u <= Rabs c /\ - (az * Rabs c + 71 * u * M) <= Rabs c * (- h / c))
  /\ (az + 11 * u < Rabs c -> 0 <= - h / c -> bpow radix2 27 * (u * M) <= 1 -> is_finite s = true).
Proof.
  intros s. unfold s. rewrite ray_unfold. destruct zero_test as (Z1 & Z2). destruct az_near as (Fa & Va). apply Rabs_le_inv in Va. destruct (u_small prec ltac:(assumption)) as (U0 & U1).
  destruct (sc_is_zero _ _) eqn:Z.
  { split; [right; apply nan_F|]. split; [discriminate|]. intros H. specialize (Z1 eq_refl). lra. }
  specialize (Z2 eq_refl). destruct Z2 as (C0 & _). destruct (quot_ok Z) as (F & B & R). rewrite (sign_test F). set (S := B2R quot) in *.
  set (t := u * M) in *. assert (T0 : u <= t) by (unfold t; nra). assert (T1 : t <= M / 1000000) by (unfold t; nra).
  assert (CP : 0 < Rabs c) by lra. assert (CN : c <> 0) by (intros N; rewrite N, Rabs_R0 in CP; lra).
  replace (u * (70 * M + 11 * Rabs S)) with (70 * t + 11 * u * Rabs S) in R by (unfold t; ring). replace (71 * u * M) with (71 * t) by (unfold t; ring).
  (* everything in units of |c| *)
  set (g := - h / c) in *. assert (HG : h = - (g * c)) by (unfold g; field; exact CN). rewrite HG in R.
  replace (S * c + - (g * c)) with ((S - g) * c) in R by ring. rewrite Rabs_mult in R. set (C := Rabs c) in *.
  destruct (Rlt_bool_spec S (- az)) as [L|L].
  - split; [right; apply nan_F|]. split; [discriminate|]. intros HC G0 Ht. exfalso.
    assert (T2 : t <= / 134217728) by (cbn in Ht; lra).
    rewrite (Rabs_left (S - g)) in R by lra. rewrite (Rabs_left S) in R by lra.
    assert (G1 : - (S - g) * C >= - S * C) by nra.
    assert (K : - S * (C - 11 * u) <= 70 * t) by lra. assert (K2 : az * az <= - S * (C - 11 * u)) by (apply Rmult_le_compat; lra). nra.
  - split; [left; exact F|]. split; [|auto]. intros _. split; [exact C0|].
    destruct (Rle_dec 0 g) as [G|G]; [nra|]. apply Rnot_le_lt in G.
    destruct (Rle_dec 0 S) as [P|P].
    + rewrite (Rabs_pos_eq (S - g)) in R by lra. rewrite (Rabs_pos_eq S) in R by exact P. assert (11 * u * S <= S * C) by nra. nra.
    + apply Rnot_le_lt in P. rewrite (Rabs_left S) in R by exact P. assert (11 * u * - S <= t) by nra.
      assert (SG : S - g <= Rabs (S - g)) by apply Rle_abs. assert (K : (S - g) * C <= 71 * t) by nra. assert (S * C >= - az * C) by nra. lra.
Qed.
End Plane.
End FP.
