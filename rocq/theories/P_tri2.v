(** The plane through three machine points: the test for collinear points and the plane (C107). *)
From Coq Require Import ZArith Reals List Lia Lra Bool Psatz.
From Flocq Require Import Core BinarySingleNaN.
From Verif Require Import Ops M_scalar M_vec M_geom Inst_F S_vec S_rnd S_hit S_tri P_ord P_ieee P_vec P_fp P_fp2 P_fp3 P_fp4 P_fp5 P_hit P_hit2 P_hit3 P_hit4 P_hit5 P_ft P_ft2 P_tri.
Import ListNotations.
Local Open Scope R_scope.

Section FP.
Variables prec emax : Z.
Context {Hprec : Prec_gt_0 prec} {Hmax : Prec_lt_emax prec emax}.
Notation fl := (binary_float prec emax).
Notation u := (unit_roundoff prec).
Notation eta := (underflow_error prec emax).
Notation Om := (bpow radix2 emax).
Notation ae := (B2R (angle_epsilon : fl)).
Notation rnd := (round radix2 (SpecFloat.fexp prec emax) (round_mode mode_NE)).
Hypothesis U20 : (20 <= prec)%Z.
Hypothesis E80 : (80 <= emax)%Z.

Lemma cst_round : forall n, (0 <= n <= 2 ^ 30)%Z -> exists d e, Rabs d <= u /\ Rabs e <= eta /\ is_finite (cst n : fl) = true /\ B2R (cst n : fl) = IZR n * (1 + d) + e.
Proof.
  intros n Hn. destruct (u_small prec ltac:(assumption)) as (U0 & U1). destruct (eta_small prec emax ltac:(lia)) as (E0 & E1).
  destruct (rnd_error prec emax (IZR n)) as (d & e & Hd & He & ER). exists d, e. split; [exact Hd|]. split; [exact He|].
  assert (NB : 0 <= IZR n <= bpow radix2 30) by (change (bpow radix2 30) with (IZR (2 ^ 30)); split; apply IZR_le; lia).
  assert (BN := binary_normalize_correct prec emax Hprec Hmax mode_NE n 0 false). cbv zeta in BN. replace (F2R {| Fnum := n; Fexp := 0 |}) with (IZR n) in BN by (unfold F2R; cbn; ring).
  rewrite Rlt_bool_true in BN.
  - destruct BN as (B1 & B2 & _). split; [exact B2|]. change (B2R (cst n : fl)) with (B2R (binary_normalize prec emax Hprec Hmax mode_NE n 0 false)). rewrite B1. exact ER.
  - rewrite ER. apply Rle_lt_trans with (bpow radix2 31).
    + change 31%Z with (1 + 30)%Z. rewrite bpow_plus. change (bpow radix2 1) with 2. assert (1 <= bpow radix2 30) by (change 1 with (bpow radix2 0); apply bpow_le; lia). apply Rabs_le_inv in Hd, He. apply Rabs_le. nra.
    + apply bpow_lt. lia.
Qed.
Lemma ae_near : near (angle_epsilon : fl) (/ 100000000) (4 * u / 100000000 + eta).
Proof.
  destruct (u_small prec ltac:(assumption)) as (U0 & U1). destruct (eta_small prec emax ltac:(lia)) as (E0 & E1). assert (OB := om_big emax ltac:(lia)).
  destruct (cst_round 1 ltac:(lia)) as (d1 & e1 & Hd1 & He1 & F1 & _). destruct (F_cst1 prec emax) as (_ & V1). destruct (cst_round 100000000 ltac:(lia)) as (d2 & e2 & Hd2 & He2 & F2 & V2).
  apply Rabs_le_inv in Hd2, He2. set (x := B2R (cst 100000000 : fl)) in *. assert (VX : B2R (cst 100000000 : fl) = x) by reflexivity. assert (XB : 100000000 * (1 - 2 * u) <= x <= 100000000 * (1 + 2 * u)) by lra.
  assert (X0 : 0 < x) by lra. clearbody x. assert (UU : u * u <= u / 1000000) by nra.
  assert (Q : / 100000000 * (1 - 21 / 10 * u) <= 1 / x <= / 100000000 * (1 + 21 / 10 * u)).
  { unfold Rdiv. rewrite Rmult_1_l. split.
    - apply Rmult_le_reg_r with x; [exact X0|]. rewrite Rinv_l. 2:{ apply Rgt_not_eq. exact X0. } clear - U0 U1 XB UU. nra.
    - apply Rmult_le_reg_r with x; [exact X0|]. rewrite Rinv_l by lra. clear - U0 U1 XB UU. nra. }
  destruct (div_ok prec emax _ (@cst _ (Fops prec emax _ _) 100000000) F1) as (FD & d & e & Hd & He & ED).
  - rewrite VX. lra.
  - rewrite VX, V1. rewrite Rabs_pos_eq by lra. apply Rle_lt_trans with (1 * 2 + eta); [|lra]. apply Rplus_le_compat_r. apply Rmult_le_compat; lra.
  - split; [exact FD|]. match type of ED with B2R ?x = _ => change (Rabs (B2R x - / 100000000) <= 4 * u / 100000000 + eta) end. rewrite ED, V1, VX. set (k := 1 / x) in *. apply Rabs_le_inv in Hd, He.
    assert (KD : Rabs (k * d) <= / 100000000 * (1 + 21 / 10 * u) * u) by (rewrite Rabs_mult; apply Rmult_le_compat; auto using Rabs_pos; [rewrite Rabs_pos_eq; lra|apply Rabs_le; lra]).
    apply Rabs_le_inv in KD. assert (u * u <= u / 1000000) by nra. apply Rabs_le. lra.
Qed.

(** The length of any short vector is not overestimated. *)
Lemma length_upper : forall (v : list fl) r D, length v = 3%nat -> all_finite v -> rnorm (values v) <= r -> 0 <= r <= 2 * D -> 0 < D -> 16 * (D * D) <= Om -> eta <= D / bpow radix2 60 -> eta <= D * D / bpow radix2 98 ->
  is_finite (v_squared_length v) = true /\ B2R (v_length v) <= (1 + 5 * u) * r + D / bpow radix2 46 /\ 0 <= B2R (v_length v).
Proof.
  intros v r D Lv Fv Hr R0 D0 HO HE HE2. destruct (u_small prec ltac:(assumption)) as (U0 & U1). destruct (eta_small prec emax ltac:(lia)) as (E0 & E1).
  assert (OB := om_big emax ltac:(lia)).
  assert (RQ : rdot (values v) (values v) <= r * r). { assert (E : rnorm (values v) * rnorm (values v) = rdot (values v) (values v)) by (apply sqrt_sqrt, rdot_nonneg). rewrite <- E. assert (P : 0 <= rnorm (values v)) by apply sqrt_pos. apply Rmult_le_compat; lra. }
  assert (R1 := rdot_nonneg (values v)). assert (RD : r * r <= 4 * (D * D)) by nra. set (s := rdot (values v) (values v)) in *.
  assert (FW : few prec (length v)) by (rewrite Lv; apply few3; assumption). assert (EF := error_few prec emax (length v) s FW R1).
  destruct (dot_ok prec emax v v eq_refl Fv Fv) as (FS & HS).
  { rewrite size_self. fold s. unfold no_overflow. rewrite Lv in *. cbn [INR] in *.
    replace ((1 + u) ^ 3 * (s + (1 + 1 + 1) * eta)) with (s + rounding_error prec emax 3 s) by (unfold rounding_error; cbn [INR]; ring).
    assert (U2 : u * s <= s / 1000000) by nra. lra. }
  rewrite size_self in HS. fold s in HS. rewrite Lv in HS, EF. cbn [INR] in HS, EF. split; [exact FS|].
  assert (SQ := Bsqrt_correct prec emax Hprec Hmax mode_NE (v_squared_length v)). destruct SQ as (SV & _). change (Bsqrt mode_NE (v_squared_length v)) with (v_length v) in SV. rewrite SV.
  apply Rabs_le_inv in HS. change (v_dot v v) with (v_squared_length v) in HS. set (q := B2R (v_squared_length v)) in *.
  assert (QB : q <= (1 + 6 * u) * (r * r) + 6 * eta) by nra.
  set (t := D / bpow radix2 47). assert (P47 := bpow_gt_0 radix2 47). assert (T0 : 0 < t) by (apply Rdiv_lt_0_compat; lra).
  assert (TT : 6 * eta <= t * t).
  { unfold t, Rdiv. replace (D * / bpow radix2 47 * (D * / bpow radix2 47)) with (D * D * (/ bpow radix2 47 * / bpow radix2 47)) by ring. rewrite <- Rinv_mult, <- bpow_plus. change (47 + 47)%Z with 94%Z.
    apply Rle_trans with (6 * (D * D / bpow radix2 98)); [lra|]. change 98%Z with (4 + 94)%Z. rewrite bpow_plus. change (bpow radix2 4) with 16. unfold Rdiv. rewrite Rinv_mult. assert (P := bpow_gt_0 radix2 94). apply Rinv_0_lt_compat in P. set (z := / bpow radix2 94) in *. assert (0 <= D * D * z) by (apply Rmult_le_pos; nra). lra. }
  assert (SU : sqrt q <= (1 + 3 * u) * r + t).
  { assert (UR : 0 <= u * r) by (apply Rmult_le_pos; lra). assert (TR : 0 <= t * r) by (apply Rmult_le_pos; lra). assert (UTR : 0 <= u * (t * r)) by (apply Rmult_le_pos; lra). assert (URR : 0 <= u * r * (u * r)) by (apply Rmult_le_pos; lra).
    apply sqrt_upto; [lra|]. apply Rle_trans with (1 := QB).
    replace (((1 + 3 * u) * r + t) * ((1 + 3 * u) * r + t)) with ((1 + 6 * u) * (r * r) + 9 * (u * r * (u * r)) + 2 * (t * r) + 6 * (u * (t * r)) + t * t) by ring. lra. }
  assert (SP := sqrt_pos q). destruct (rnd_error prec emax (sqrt q)) as (d & e & Hd & He & ER). split.
  - rewrite ER. apply Rabs_le_inv in Hd, He. assert (T46 : D / bpow radix2 46 = 2 * t). { unfold t. change 47%Z with (1 + 46)%Z. rewrite bpow_plus. change (bpow radix2 1) with 2. field. apply Rgt_not_eq, bpow_gt_0. }
    assert (E60 : eta <= t / 8192). { apply Rle_trans with (1 := HE). unfold t. change 60%Z with (13 + 47)%Z. rewrite bpow_plus. change (bpow radix2 13) with 8192. right. field. lra. }
    rewrite T46. assert (SD : sqrt q * (1 + d) <= ((1 + 3 * u) * r + t) * (1 + u)) by (apply Rmult_le_compat; lra). assert (R3 : 0 <= u * r) by (apply Rmult_le_pos; lra). assert (UR : u * (u * r) <= / 1000000 * (u * r)) by (apply Rmult_le_compat_r; lra). assert (UT : u * t <= / 1000000 * t) by (apply Rmult_le_compat_r; lra). lra.
  - rewrite <- (round_0 radix2 (SpecFloat.fexp prec emax) (round_mode mode_NE)). apply round_le; [apply FLT_exp_valid; exact Hprec|apply valid_rnd_round_mode|exact SP].
Qed.

Lemma nan_inf : forall x : fl, M_scalar.is_nan x || is_inf x = negb (is_finite x).
Proof. intros x. unfold M_scalar.is_nan, is_inf. destruct x as [[]|[]| |[] m e H]; try reflexivity; cbn; unfold Beqb, SpecFloat.SFeqb; cbn; rewrite ?Z.compare_refl, ?Pcompare_refl; reflexivity. Qed.

Lemma div_fin : forall x y : fl, B2R y <> 0 -> Rabs (B2R x / B2R y) <= 4 -> is_finite (o_div x y) = is_finite x.
Proof.
  intros x y Y0 H. destruct (u_small prec ltac:(assumption)) as (U0 & U1). destruct (eta_small prec emax ltac:(lia)) as (E0 & E1). assert (OB := om_big emax ltac:(lia)).
  assert (BD := Bdiv_correct prec emax Hprec Hmax mode_NE x y Y0). change (o_div x y) with (Bdiv mode_NE x y). destruct (rnd_error prec emax (B2R x / B2R y)) as (d & e & Hd & He & ER). rewrite Rlt_bool_true in BD; [apply BD|].
  rewrite ER. set (z := B2R x / B2R y) in *. assert (XD : Rabs (z * d) <= 4 * u) by (rewrite Rabs_mult; apply Rmult_le_compat; auto using Rabs_pos). apply Rabs_le_inv in XD, He, H. apply Rle_lt_trans with 8; [apply Rabs_le; split; lra|lra].
Qed.
Section Points.
Variables p1 p2 p3 : list fl.
Variable M : R.
Hypothesis W1 : within M p1.
Hypothesis W2 : within M p2.
Hypothesis W3 : within M p3.
Hypothesis M1 : 1 <= M.
Hypothesis HM : bpow radix2 80 * (M * M * (M * M)) <= Om.
Let e1 := rsub (values p3) (values p1).
Let e2 := rsub (values p2) (values p1).
Let A := rnorm e1.
Let B := rnorm e2.
Let D := A * B.
Hypothesis A1 : / M <= A.
Hypothesis B1 : / M <= B.
Let C := corner (values p1) (values p2) (values p3).
Let S := corner_sine (values p1) (values p2) (values p3).
Let v1 := v_sub p3 p1.
Let v2 := v_sub p2 p1.
Let c := v_cross v1 v2.
Let prod := o_mul (v_length v1) (v_length v2).

Lemma inv_M : 0 < / M <= 1. Proof. split; [apply Rinv_0_lt_compat; lra|rewrite <- Rinv_1; apply Rinv_le; lra]. Qed.
Lemma M_small : 4 * M <= Om /\ 64 * (M * M) <= Om /\ 4096 * (M * M * (M * M)) <= Om.
Proof.
  assert (MM : 1 <= M * M) by nra. assert (M4 : M * M <= M * M * (M * M)) by nra. assert (P : 4096 <= bpow radix2 80) by (change 4096 with (bpow radix2 12); apply bpow_le; lia).
  assert (X : 4096 * (M * M * (M * M)) <= bpow radix2 80 * (M * M * (M * M))) by (apply Rmult_le_compat_r; lra). repeat split; nra.
Qed.
Lemma norm_le : forall e, length e = 3%nat -> Forall (fun y => Rabs y <= 2 * M) e -> rnorm e <= 4 * M.
Proof.
  intros e L H. destruct e as [|e0 [|e1' [|e2' [|]]]]; try discriminate. inversion H as [|? ? H0 H']; subst. inversion H' as [|? ? H1 H'']; subst. inversion H'' as [|? ? H2 _]; subst.
  unfold rnorm. apply sqrt_upto; [lra|]. cbn [rdot]. assert (Q : forall y, Rabs y <= 2 * M -> y * y <= 4 * (M * M)) by (intros y Y; apply Rabs_le_inv in Y; nra). apply Q in H0, H1, H2. nra.
Qed.
Lemma edges : Forall2 (fun x y => near x y (u * Rabs y)) v1 e1 /\ Forall2 (fun x y => near x y (u * Rabs y)) v2 e2 /\ length e1 = 3%nat /\ length e2 = 3%nat /\ A <= 4 * M /\ B <= 4 * M /\ 0 < A /\ 0 < B
  /\ Forall (fun y => Rabs y <= 2 * M) e1 /\ Forall (fun y => Rabs y <= 2 * M) e2.
Proof.
  destruct inv_M as (I0 & _). destruct M_small as (MS & _). assert (N1 := edge_near prec emax ltac:(assumption) p3 p1 M W3 W1 MS ltac:(lra)). assert (N2 := edge_near prec emax ltac:(assumption) p2 p1 M W2 W1 MS ltac:(lra)).
  fold v1 e1 in N1. fold v2 e2 in N2. assert (L1 : length e1 = 3%nat). { unfold e1, rsub. destruct W3 as (L3 & _), W1 as (L1 & _). clear - L3 L1. destruct p3 as [|? [|? [|? [|]]]]; try discriminate. destruct p1 as [|? [|? [|? [|]]]]; try discriminate. reflexivity. }
  assert (L2 : length e2 = 3%nat). { unfold e2, rsub. destruct W2 as (L3 & _), W1 as (L0 & _). clear - L3 L0. destruct p2 as [|? [|? [|? [|]]]]; try discriminate. destruct p1 as [|? [|? [|? [|]]]]; try discriminate. reflexivity. }
  assert (F : forall (a : list fl) e, Forall2 (fun x y => near x y (u * Rabs y) /\ Rabs y <= 2 * M) a e -> Forall2 (fun x y => near x y (u * Rabs y)) a e /\ Forall (fun y => Rabs y <= 2 * M) e).
  { intros a e H. induction H as [|x y a' e' (HX & HY) _ (I1 & I2)]; [split; [apply Forall2_nil|apply Forall_nil]|]. split; [apply Forall2_cons; assumption|apply Forall_cons; assumption]. }
  destruct (F _ _ N1) as (X1 & Y1). destruct (F _ _ N2) as (X2 & Y2). split; [exact X1|]. split; [exact X2|]. split; [exact L1|]. split; [exact L2|]. split; [exact (norm_le _ L1 Y1)|]. split; [exact (norm_le _ L2 Y2)|]. split; [lra|]. split; [lra|]. split; assumption.
Qed.
Lemma D_facts : 0 < D /\ / M * / M <= D <= 16 * (M * M) /\ 64 * D <= Om /\ 16 * (D * D) <= Om /\ eta <= u * D / 100 /\ eta <= D / bpow radix2 60 /\ eta <= D * D / bpow radix2 98 /\ eta <= u / bpow radix2 78.
Proof.
  destruct (u_small prec ltac:(assumption)) as (U0 & U1). destruct edges as (_ & _ & _ & _ & A4 & B4 & A0 & B0 & _). destruct inv_M as (I0 & I1). destruct M_small as (_ & MS2 & MS4).
  destruct (tiny prec emax M A B M1 HM A1 B1) as (EE & WP & WK & WD & WDD & _). fold D in WD, WDD. set (w := bpow radix2 (2 - emax)) in *. set (k := / bpow radix2 78) in *.
  assert (D0 : 0 < D) by (apply Rmult_lt_0_compat; lra). assert (DL : / M * / M <= D) by (apply Rmult_le_compat; lra). assert (DU : D <= 16 * (M * M)) by (replace (16 * (M * M)) with (4 * M * (4 * M)) by ring; apply Rmult_le_compat; lra).
  assert (KB : k <= / bpow radix2 60) by (apply Rinv_le; [apply bpow_gt_0|apply bpow_le; lia]). assert (K1 : k <= / 100) by (apply Rinv_le; [lra|]; apply Rle_trans with (bpow radix2 7); [cbn; lra|apply bpow_le; lia]).
  assert (K0 : 0 < k) by (apply Rinv_0_lt_compat, bpow_gt_0). 
  assert (UB20 : u <= / bpow radix2 20) by (rewrite <- bpow_opp; apply bpow_le; lia).
  assert (DDU : D * D <= 256 * (M * M * (M * M))) by (replace (256 * (M * M * (M * M))) with (16 * (M * M) * (16 * (M * M))) by ring; apply Rmult_le_compat; lra).
  assert (MM : 1 <= M * M) by nra. assert (MM4 : M * M <= M * M * (M * M)) by nra.
  repeat split; try lra.
  - rewrite EE. unfold Rdiv. rewrite Rmult_assoc. apply Rmult_le_compat_l; [lra|]. apply Rle_trans with (1 := WD). rewrite (Rmult_comm k D). apply Rmult_le_compat_l; lra.
  - rewrite EE. apply Rle_trans with (1 * w); [apply Rmult_le_compat_r; lra|]. rewrite Rmult_1_l. apply Rle_trans with (1 := WD). unfold Rdiv. rewrite (Rmult_comm k D). apply Rmult_le_compat_l; lra.
  - rewrite EE. apply Rle_trans with (/ bpow radix2 20 * (k * (D * D))); [apply Rmult_le_compat; lra|]. unfold k. rewrite <- Rmult_assoc, <- Rinv_mult, <- bpow_plus. change (20 + 78)%Z with 98%Z. unfold Rdiv. rewrite (Rmult_comm (D * D)). apply Rle_refl.
  - rewrite EE. unfold Rdiv. apply Rmult_le_compat_l; [lra|]. exact WK.
Qed.
Lemma weak_edge : forall (a : list fl) e E, Forall2 (fun x y => near x y (u * Rabs y)) a e -> rnorm e = E -> Forall2 (fun x y => near x y (u * E) /\ Rabs y <= E) a e.
Proof.
  intros a e E H HE. destruct (u_small prec ltac:(assumption)) as (U0 & U1). assert (K : forall y, In y e -> Rabs y <= E) by (intros y Hy; rewrite <- HE; now apply component_le_norm).
  clear HE. induction H as [|x y a' e' N _ IH]; [apply Forall2_nil|]. assert (Y := K y (or_introl eq_refl)). apply Forall2_cons; [split; [eapply near_le; [exact N|apply Rmult_le_compat_l; lra]|exact Y]|]. apply IH. intros z Hz. apply K. now right.
Qed.
Lemma cross_c : Forall2 (fun x y => near x y (72 / 10 * (u * D))) c C /\ rnorm C = S * D /\ 0 <= S <= 1 /\ length c = 3%nat /\ all_finite c /\ length C = 3%nat.
Proof.
  destruct edges as (X1 & X2 & L1 & L2 & A4 & B4 & A0 & B0 & _). destruct D_facts as (D0 & _ & DO & _ & DE & _).
  destruct (cross_err prec emax ltac:(assumption) ltac:(assumption) v1 v2 e1 e2 A B (weak_edge _ _ A X1 eq_refl) (weak_edge _ _ B X2 eq_refl) L1 L2 eq_refl eq_refl A0 B0) as (_ & _ & H & N); [fold D; lra|fold D; exact DE|]. fold c D in H, N. change (rcross e1 e2) with C in H, N.
  assert (SD : S = rnorm C / D) by reflexivity. split; [exact H|]. split; [rewrite SD; field; lra|]. split.
  { rewrite SD. assert (P : 0 <= rnorm C) by apply sqrt_pos. split; [apply Rmult_le_pos; [exact P|apply Rlt_le, Rinv_0_lt_compat; exact D0]|]. apply Rmult_le_reg_r with D; [exact D0|]. unfold Rdiv. rewrite Rmult_assoc, Rinv_l by lra. lra. }
  split; [reflexivity|]. split; [|unfold C, corner; fold e1 e2; clear - L1 L2; destruct e1 as [|? [|? [|? [|]]]]; try discriminate; destruct e2 as [|? [|? [|? [|]]]]; try discriminate; reflexivity].
  clear - H. induction H as [|? ? ? ? N _ IH]; [apply Forall_nil|]. apply Forall_cons; [apply N|exact IH].
Qed.
Lemma norm_c : Rabs (rnorm (values c) - S * D) <= 22 * (u * D).
Proof.
  destruct (u_small prec ltac:(assumption)) as (U0 & U1). destruct cross_c as (H & NS & SB & Lc & Fc & LC). destruct D_facts as (D0 & _). assert (UD : 0 < u * D) by (apply Rmult_lt_0_compat; lra).
  rewrite <- NS. apply Rle_trans with (0 * rnorm C + INR (length C) * (72 / 10 * (u * D))); [|rewrite LC; cbn [INR]; lra].
  apply norm_close; [lra|lra|]. clear - H. unfold values. induction H as [|x y ? ? N _ IH]; [apply Forall2_nil|]. apply Forall2_cons; [destruct N as (_ & N); lra|exact IH].
Qed.
Lemma prod_near : near prod D (115 / 10 * (u * D)).
Proof.
  destruct (u_small prec ltac:(assumption)) as (U0 & U1). destruct edges as (X1 & X2 & L1 & L2 & A4 & B4 & A0 & B0 & _). destruct D_facts as (D0 & _ & DO & _ & DE & _).
  assert (N1 := edge_length prec emax ltac:(assumption) v1 e1 A M X1 L1 eq_refl M1 HM A1 A4). assert (N2 := edge_length prec emax ltac:(assumption) v2 e2 B M X2 L2 eq_refl M1 HM B1 B4).
  assert (UD0 : 0 < u * D) by (apply Rmult_lt_0_compat; lra). assert (UD : u * D <= / 1000000 * D) by (apply Rmult_le_compat_r; lra). assert (UUD : u * (u * D) <= / 1000000 * (u * D)) by (apply Rmult_le_compat_r; lra). assert (UUUD : u * (u * (u * D)) <= / 1000000 * (u * (u * D))) by (apply Rmult_le_compat_r; [apply Rmult_le_pos|]; lra).
  eapply near_le; [apply (near_mul prec emax _ _ _ _ _ _ A B N1 N2)|].
  - rewrite Rabs_pos_eq; lra.
  - rewrite Rabs_pos_eq; lra.
  - replace ((A + 52 / 10 * (u * A)) * (B + 52 / 10 * (u * B)) * (1 + u) + eta) with (D + 114 / 10 * (u * D) + (104 / 10 + 2704 / 100) * (u * (u * D)) + 2704 / 100 * (u * (u * (u * D))) + eta) by (unfold D; field). lra.
  - replace (A * (52 / 10 * (u * B)) + B * (52 / 10 * (u * A)) + 52 / 10 * (u * A) * (52 / 10 * (u * B)) + u * ((A + 52 / 10 * (u * A)) * (B + 52 / 10 * (u * B))) + eta) with (114 / 10 * (u * D) + (104 / 10 + 2704 / 100) * (u * (u * D)) + 2704 / 100 * (u * (u * (u * D))) + eta) by (unfold D; field). lra.
Qed.

Let q := o_div (v_length c) prod.
Lemma normal_unfold : plane_normal p1 p2 p3 angle_epsilon = if is_finite (sc_abs q) then if o_lt (sc_abs q) angle_epsilon then (false, v_zero 3) else (true, v_normalize c) else (false, v_zero 3).
Proof. unfold plane_normal. fold v1 v2. cbv zeta. fold c prod q. rewrite nan_inf. destruct (is_finite (sc_abs q)); [cbn [negb orb]; reflexivity|reflexivity]. Qed.
Lemma abs_finite : is_finite (sc_abs q) = is_finite q.
Proof.
  destruct (is_finite q) eqn:E; [now apply abs_ok|]. revert E. generalize q. clear. intros [[]|[]| |] H; try discriminate H; reflexivity.
Qed.
(** The computed sine *)
Lemma quot_upper : is_finite q = true -> Rabs (B2R q) <= S + 42 * u + / bpow radix2 40.
Proof.
  intros FQ. destruct (u_small prec ltac:(assumption)) as (U0 & U1). destruct cross_c as (H & NS & SB & Lc & Fc & LC). assert (NC := Rabs_le_inv _ _ norm_c). destruct D_facts as (D0 & DB & DO & DDO & DE & DE60 & DE98 & EU). destruct prod_near as (FP & HP). apply Rabs_le_inv in HP. destruct (eta_small prec emax ltac:(lia)) as (E0 & E1).
  assert (UD : 0 < u * D) by (apply Rmult_lt_0_compat; lra). assert (UD1 : u * D <= / 1000000 * D) by (apply Rmult_le_compat_r; lra). assert (SD : 0 <= S * D <= 1 * D) by (split; [apply Rmult_le_pos; lra|apply Rmult_le_compat_r; lra]).
  destruct (length_upper c (S * D + 22 * (u * D)) D Lc Fc) as (FS & LU & L0); try lra.
  set (P := B2R prod) in *. set (L := B2R (v_length c)) in *. assert (P0 : 0 < P) by lra.
  set (t := / bpow radix2 40). assert (T0 : 0 < t) by (apply Rinv_0_lt_compat, bpow_gt_0). assert (T1 : t <= / 1000000) by (apply Rinv_le; [lra|]; apply Rle_trans with (bpow radix2 20); [cbn; lra|apply bpow_le; lia]).
  assert (T46 : D / bpow radix2 46 = D * t / 64). { unfold t. change 46%Z with (6 + 40)%Z. rewrite bpow_plus. change (bpow radix2 6) with 64. field. apply Rgt_not_eq, bpow_gt_0. }
  rewrite T46 in LU.
  assert (LP : 0 <= L / P <= S + 40 * u + t / 32).
  { split; [apply Rmult_le_pos; [exact L0|apply Rlt_le, Rinv_0_lt_compat; exact P0]|]. apply Rmult_le_reg_r with P; [exact P0|]. unfold Rdiv at 1. rewrite Rmult_assoc, Rinv_l, Rmult_1_r by lra. apply Rle_trans with (1 := LU).
    set (x := S + 40 * u + t / 32). assert (X : 0 <= x <= 2) by (unfold x; lra). apply Rle_trans with (x * (D - 115 / 10 * (u * D))); [|apply Rmult_le_compat_l; lra].
    assert (USD : u * (S * D) <= u * D) by (apply Rmult_le_compat_l; lra). assert (UUD : u * (u * D) <= / 1000000 * (u * D)) by (apply Rmult_le_compat_r; lra). assert (TD : 0 < t * D) by (apply Rmult_lt_0_compat; lra). assert (UTD : u * (t * D) <= / 1000000 * (t * D)) by (apply Rmult_le_compat_r; lra).
    unfold x. assert (Y0 : 0 <= u * (S * D)) by (apply Rmult_le_pos; lra). replace ((S + 40 * u + t / 32) * (D - 115 / 10 * (u * D))) with (S * D + 40 * (u * D) + t * D / 32 - 115 / 10 * (u * (S * D)) - 460 * (u * (u * D)) - 115 / 320 * (u * (t * D))) by field.
    replace ((1 + 5 * u) * (S * D + 22 * (u * D)) + D * t / 64) with (S * D + 22 * (u * D) + 5 * (u * (S * D)) + 110 * (u * (u * D)) + t * D / 64) by field. lra. }
  destruct (is_finite (v_length c)) eqn:FL.
  - destruct (div_ok prec emax (v_length c) prod FL) as (_ & d & e & Hd & He & ED).
    + apply Rgt_not_eq. exact P0.
    + fold L P. rewrite Rabs_pos_eq by lra. apply Rle_lt_trans with (2 * 2 + eta); [apply Rplus_le_compat_r, Rmult_le_compat; lra|]. assert (OB := om_big emax ltac:(lia)). lra.
    + unfold q. rewrite ED. fold L P. set (x := L / P) in *. assert (XD : Rabs (x * d) <= 11 / 10 * u) by (rewrite Rabs_mult; apply Rmult_le_compat; auto using Rabs_pos; rewrite Rabs_pos_eq; lra). apply Rabs_le_inv in XD, He. apply Rabs_le. split; lra.
  - exfalso. assert (DF : is_finite q = is_finite (v_length c)) by (apply div_fin; [apply Rgt_not_eq; exact P0|fold L P; rewrite Rabs_pos_eq; lra]). congruence.
Qed.
Lemma c_moderate : / bpow radix2 30 <= S -> 1000 * u <= S -> moderate emax (values c).
Proof.
  intros S30 SU. destruct (u_small prec ltac:(assumption)) as (U0 & U1). destruct cross_c as (H & NS & SB & Lc & Fc & LC). assert (NC := Rabs_le_inv _ _ norm_c). destruct D_facts as (D0 & DB & DO & DDO & DE & DE60 & DE98 & EU). destruct inv_M as (I0 & I1).
  assert (UD : 1000 * u * D <= S * D) by (apply Rmult_le_compat_r; lra). assert (SD : S * D <= 1 * D) by (apply Rmult_le_compat_r; lra). assert (UD0 : 0 < u * D) by (apply Rmult_lt_0_compat; lra).
  apply moderate_in with M; auto. change (bpow radix2 8) with 256. split; [|lra].
  apply Rle_trans with (/ 8 * (/ bpow radix2 30 * (/ M * / M))).
  - change 33%Z with (3 + 30)%Z. rewrite bpow_plus. change (bpow radix2 3) with 8. right. field. split; [lra|apply Rgt_not_eq, bpow_gt_0].
  - assert (X : / bpow radix2 30 * (/ M * / M) <= S * D). { apply Rmult_le_compat; try lra. apply Rlt_le, Rinv_0_lt_compat, bpow_gt_0. apply Rmult_le_pos; lra. } lra.
Qed.
Lemma quot_lower : / bpow radix2 30 <= S -> 1000 * u <= S -> is_finite q = true /\ S - 42 * u <= Rabs (B2R q).
Proof.
  intros S30 SU. destruct (u_small prec ltac:(assumption)) as (U0 & U1). destruct cross_c as (H & NS & SB & Lc & Fc & LC). assert (NC := Rabs_le_inv _ _ norm_c). destruct D_facts as (D0 & DB & DO & DDO & DE & DE60 & DE98 & EU). destruct prod_near as (FP & HP). apply Rabs_le_inv in HP. destruct (eta_small prec emax ltac:(lia)) as (E0 & E1).
  assert (UD : 0 < u * D) by (apply Rmult_lt_0_compat; lra). assert (UD1 : u * D <= / 1000000 * D) by (apply Rmult_le_compat_r; lra). assert (SD : 1000 * u * D <= S * D <= 1 * D) by (split; apply Rmult_le_compat_r; lra).
  destruct (length_ok prec emax c Fc) as (FL & HL); [rewrite Lc; apply few3; assumption|exact (c_moderate S30 SU)|]. rewrite Lc in HL. cbn [Nat.add INR] in HL. apply Rabs_le_inv in HL. set (r := rnorm (values c)) in *.
  set (P := B2R prod) in *. set (L := B2R (v_length c)) in *. assert (P0 : 0 < P) by lra. 
  assert (USD : u * (S * D) <= u * D) by (apply Rmult_le_compat_l; lra). assert (UUD : u * (u * D) <= / 1000000 * (u * D)) by (apply Rmult_le_compat_r; lra).
  assert (UR : u * r <= 2 * (u * D)). { apply Rle_trans with (u * (S * D + 22 * (u * D))); [apply Rmult_le_compat_l; lra|lra]. }
  assert (UR2 : u * r <= u * (S * D) + 22 * (u * (u * D))). { rewrite <- Rmult_plus_distr_l || idtac. apply Rle_trans with (u * (S * D + 22 * (u * D))); [apply Rmult_le_compat_l; lra|right; ring]. }
  assert (LL : S * D - 261 / 10 * (u * D) <= L <= S * D + 261 / 10 * (u * D)) by lra.
  assert (LP : S - 40 * u <= L / P <= 2).
  { split.
    - apply Rmult_le_reg_r with P; [exact P0|]. unfold Rdiv. rewrite Rmult_assoc, Rinv_l, Rmult_1_r by lra. apply Rle_trans with ((S - 40 * u) * (D + 115 / 10 * (u * D))); [apply Rmult_le_compat_l; lra|].
      replace ((S - 40 * u) * (D + 115 / 10 * (u * D))) with (S * D - 40 * (u * D) + 115 / 10 * (u * (S * D)) - 460 * (u * (u * D))) by field. assert (0 < u * (u * D)) by (apply Rmult_lt_0_compat; lra). lra.
    - apply Rmult_le_reg_r with P; [exact P0|]. unfold Rdiv. rewrite Rmult_assoc, Rinv_l, Rmult_1_r by lra. lra. }
  destruct (div_ok prec emax (v_length c) prod FL) as (FQ & d & e & Hd & He & ED).
  - apply Rgt_not_eq. exact P0.
  - fold L P. rewrite Rabs_pos_eq by lra. apply Rle_lt_trans with (2 * 2 + eta); [apply Rplus_le_compat_r, Rmult_le_compat; lra|]. assert (OB := om_big emax ltac:(lia)). lra.
  - split; [exact FQ|]. unfold q. rewrite ED. fold L P. set (x := L / P) in *. apply Rle_trans with (2 := Rle_abs _).
    assert (XU : x <= S + 41 * u \/ S + 41 * u < x) by (destruct (Rle_lt_dec x (S + 41 * u)); auto).
    assert (XD : Rabs (x * d) <= x * u) by (rewrite Rabs_mult, (Rabs_pos_eq x) by lra; apply Rmult_le_compat_l; lra). apply Rabs_le_inv in XD, He.
    assert (XUU : u * S <= u * 1) by (apply Rmult_le_compat_l; lra). assert (UU : u * u <= / 1000000 * u) by (apply Rmult_le_compat_r; lra).
    assert (X0 : (S - 40 * u) * (1 - u) <= x * (1 - u)) by (apply Rmult_le_compat_r; lra). assert (UU0 : 0 < u * u) by (apply Rmult_lt_0_compat; lra). lra.
Qed.

(** The normal *)
Lemma unit_of : forall v : list fl, length v = 3%nat -> all_finite v -> moderate emax (values v) -> nearly_unit (v_normalize v)
  /\ Forall2 (fun x y => Rabs (B2R y - B2R x / rnorm (values v)) <= 8 * u * (Rabs (B2R x) / rnorm (values v)) + eta) v (v_normalize v).
Proof.
  intros v L F MO. assert (FW : few prec (length v)) by (rewrite L; apply few3; assumption). assert (NO := normalize_ok prec emax v F FW MO). assert (NN := normalize_norm prec emax v F FW MO). assert (P := u_pos prec).
  rewrite L in NO, NN. cbn [Nat.mul Nat.add INR] in NO, NN. split.
  - split; [rewrite normalize_length; exact L|]. split.
    + clear - NO. generalize dependent (rnorm (values v)). intros r NO. induction NO as [|? ? ? ? N _ IH]; [apply Forall_nil|]. apply Forall_cons; [apply N|exact IH].
    + eapply Rle_trans; [exact NN|]. lra.
  - clear - NO. generalize dependent (rnorm (values v)). intros r NO. induction NO as [|? ? ? ? N _ IH]; [apply Forall2_nil|]. apply Forall2_cons; [destruct N as (_ & N); eapply Rle_trans; [exact N|lra]|exact IH].
Qed.
Lemma normal_ok : / bpow radix2 30 <= S -> 1000 * u <= S -> nearly_unit (v_normalize c) /\ Forall2 (fun x y => Rabs (B2R x - y / rnorm C) <= 39 * (u / S)) (v_normalize c) C.
Proof.
  intros S30 SU. destruct (u_small prec ltac:(assumption)) as (U0 & U1). destruct (eta_small prec emax ltac:(lia)) as (E0 & E1). destruct cross_c as (H & NS & SB & Lc & Fc & LC). assert (NC := norm_c). destruct D_facts as (D0 & DB & DO & DDO & DE & DE60 & DE98 & EU).
  destruct (unit_of c Lc Fc (c_moderate S30 SU)) as (NU & NV). split; [exact NU|]. assert (CL : forall z, In z c -> Rabs (B2R z) <= rnorm (values c)) by (intros z Hz; apply component_le_norm; unfold values; now apply in_map).
  set (r := rnorm (values c)) in *. set (N := rnorm C) in *. rewrite <- NS in NC. apply Rabs_le_inv in NC.
  assert (S0 : 0 < S) by lra. assert (UD0 : 0 < u * D) by (apply Rmult_lt_0_compat; lra). assert (SD : 1000 * u * D <= S * D) by (apply Rmult_le_compat_r; lra). assert (N0 : 0 < N) by lra. assert (R0 : 0 < r) by lra.
  assert (UDN : u * D / N = u / S) by (rewrite NS; field; lra). assert (US : u <= u / S). { unfold Rdiv. rewrite <- (Rmult_1_r u) at 1. apply Rmult_le_compat_l; [lra|]. rewrite <- Rinv_1. apply Rinv_le; lra. }
  clear NU. generalize dependent (v_normalize c). intros n NV. revert n NV.
  assert (G : forall (c' : list fl) C' n, Forall2 (fun x y => near x y (72 / 10 * (u * D))) c' C' -> (forall z, In z c' -> Rabs (B2R z) <= r) -> Forall2 (fun x y : fl => Rabs (B2R y - B2R x / r) <= 8 * u * (Rabs (B2R x) / r) + eta) c' n -> Forall2 (fun (x : fl) y => Rabs (B2R x - y / N) <= 39 * (u / S)) n C').
  { intros c' C' n HC. revert n. induction HC as [|x y cl Cl NX _ IH]; intros n HI HN; [inversion HN; apply Forall2_nil|]. inversion HN as [|? m ? nl HX HR]; subst. apply Forall2_cons; [|apply IH; [intros z Hz; apply HI; now right|exact HR]].
    assert (XR := HI x (or_introl eq_refl)). destruct NX as (_ & NX). clear IH HN HR HI. set (xv := B2R x) in *. assert (XQ : Rabs (xv / r) <= 1). { unfold Rdiv. rewrite Rabs_mult, (Rabs_pos_eq (/ r)) by (apply Rlt_le, Rinv_0_lt_compat; exact R0). apply Rmult_le_reg_r with r; [exact R0|]. rewrite Rmult_assoc, Rinv_l by lra. lra. }
    assert (XQ2 : Rabs xv / r <= 1). { unfold Rdiv. apply Rmult_le_reg_r with r; [exact R0|]. rewrite Rmult_assoc, Rinv_l by lra. lra. }
    assert (H1 : Rabs (B2R m - xv / r) <= 9 * u). { apply Rle_trans with (1 := HX). assert (P : 0 <= Rabs xv / r) by (apply Rmult_le_pos; [apply Rabs_pos|apply Rlt_le, Rinv_0_lt_compat; exact R0]). assert (8 * u * (Rabs xv / r) <= 8 * u * 1) by (apply Rmult_le_compat_l; lra). lra. }
    assert (H2 : Rabs (xv / r - y / N) <= 292 / 10 * (u * D / N)).
    { replace (xv / r - y / N) with ((xv - y) / N + xv / r * ((N - r) / N)) by (field; lra). assert (K : forall a k, Rabs a <= k -> Rabs (a / N) <= k / N). { intros a k Ha. unfold Rdiv. rewrite Rabs_mult, (Rabs_pos_eq (/ N)) by (apply Rlt_le, Rinv_0_lt_compat; exact N0). apply Rmult_le_compat_r; [apply Rlt_le, Rinv_0_lt_compat; exact N0|exact Ha]. }
      assert (K1 := K _ _ NX). assert (K2 : Rabs ((N - r) / N) <= 22 * (u * D) / N) by (apply K; apply Rabs_le; lra). assert (K3 : Rabs (xv / r * ((N - r) / N)) <= 1 * (22 * (u * D) / N)) by (rewrite Rabs_mult; apply Rmult_le_compat; auto using Rabs_pos).
      eapply Rle_trans; [apply Rabs_triang|]. replace (292 / 10 * (u * D / N)) with (72 / 10 * (u * D) / N + 1 * (22 * (u * D) / N)) by (field; lra). lra. }
    rewrite UDN in H2. replace (B2R m - y / N) with ((B2R m - xv / r) + (xv / r - y / N)) by ring. eapply Rle_trans; [apply Rabs_triang|]. lra. }
  intros n NV. exact (G c C n H CL NV).
Qed.

(** The plane *)
Lemma dot_split : forall n p p' E : list R, length n = 3%nat -> length p = 3%nat -> length p' = 3%nat -> length E = 3%nat -> rdot p n = rdot p' n + (rdot (rsub p p') (zip Rminus n E) + rdot (rsub p p') E).
Proof.
  intros n p p' E L1 L2 L3 L4. destruct n as [|n0 [|n1 [|n2 [|]]]]; try discriminate. destruct p as [|a0 [|a1 [|a2 [|]]]]; try discriminate. destruct p' as [|b0 [|b1 [|b2 [|]]]]; try discriminate. destruct E as [|x0 [|x1 [|x2 [|]]]]; try discriminate. unfold rsub. cbn. ring.
Qed.
Lemma dot_small : forall a b k m, length a = 3%nat -> length b = 3%nat -> Forall (fun x => Rabs x <= k) a -> Forall (fun x => Rabs x <= m) b -> Rabs (rdot a b) <= 3 * (k * m).
Proof.
  intros a b k m La Lb Ha Hb. destruct a as [|a0 [|a1 [|a2 [|]]]]; try discriminate. destruct b as [|b0 [|b1 [|b2 [|]]]]; try discriminate.
  inversion Ha as [|? ? A0' Ha1]; subst. inversion Ha1 as [|? ? A1' Ha2]; subst. inversion Ha2 as [|? ? A2' _]; subst. inversion Hb as [|? ? B0' Hb1]; subst. inversion Hb1 as [|? ? B1' Hb2]; subst. inversion Hb2 as [|? ? B2' _]; subst.
  assert (K : forall x y, Rabs x <= k -> Rabs y <= m -> Rabs (x * y) <= k * m) by (intros x y X Y; rewrite Rabs_mult; apply Rmult_le_compat; auto using Rabs_pos).
  assert (K0 := K _ _ A0' B0'). assert (K1 := K _ _ A1' B1'). assert (K2 := K _ _ A2' B2'). apply Rabs_le_inv in K0, K1, K2. cbn [rdot]. apply Rabs_le. lra.
Qed.
Lemma plane_ok : / bpow radix2 30 <= S -> 1000 * u <= S -> let p := pl_make p1 (v_normalize c) in
  is_finite (pl_dist p) = true /\ Rabs (B2R (pl_dist p)) <= 4 * M /\ (forall x, In x [p1; p2; p3] -> Rabs (plane_distance p x) <= 250 * (u * M / S)).
Proof.
  intros S30 SU p. destruct (u_small prec ltac:(assumption)) as (U0 & U1). destruct (eta_small prec emax ltac:(lia)) as (E0 & E1). destruct cross_c as (H & NS & SB & Lc & Fc & LC). destruct D_facts as (D0 & DB & DO & DDO & DE & DE60 & DE98 & EU). destruct edges as (X1 & X2 & L1 & L2 & A4 & B4 & A0 & B0 & Y1 & Y2). destruct M_small as (MS & MS2 & _).
  destruct (normal_ok S30 SU) as (NU & NE). destruct (unit_facts prec emax ltac:(assumption) (v_normalize c) NU) as (NB & _ & _). set (n := v_normalize c) in *. assert (Ln : length n = 3%nat) by apply NU. assert (Fn : all_finite n) by apply NU. destruct W1 as (K1 & F1 & BP1).
  assert (S0 : 0 < S) by lra. assert (UM : 0 < u * M) by (apply Rmult_lt_0_compat; lra). assert (UU : u <= u * M) by nra. assert (UMS : u * M <= u * M / S). { unfold Rdiv. rewrite <- (Rmult_1_r (u * M)) at 1. apply Rmult_le_compat_l; [lra|]. rewrite <- Rinv_1. apply Rinv_le; lra. }
  destruct (dot3_near prec emax p1 n (values p1) (values n) 0 0 M (1001 / 1000)) as (FD & HD); auto; try lra.
  { apply exact_all. exact F1. } { apply exact_all. exact Fn. } { nra. }
  assert (HD' : Rabs (B2R (v_dot p1 n) - rdot (values p1) (values n)) <= 102 / 10 * (u * M)). { eapply Rle_trans; [exact HD|]. rewrite !Rplus_0_r. nra. } clear HD.
  assert (LV1 : length (values p1) = 3%nat) by (unfold values; now rewrite map_length). assert (LVn : length (values n) = 3%nat) by (unfold values; now rewrite map_length).
  assert (PD := dot_small (values p1) (values n) M (1001 / 1000) LV1 LVn BP1 NB).
  split; [exact FD|]. split. { change (pl_dist p) with (v_dot p1 n). apply Rabs_le_inv in HD', PD. assert (u * M <= / 1000000 * M) by (apply Rmult_le_compat_r; lra). apply Rabs_le. lra. }
  assert (PL : forall x, plane_distance p x = rdot (values x) (values n) - B2R (v_dot p1 n)) by reflexivity.
  assert (US : 0 < u / S) by (apply Rdiv_lt_0_compat; lra). assert (EDGE : forall x, length x = 3%nat -> Forall (fun y => Rabs y <= 2 * M) (rsub (values x) (values p1)) -> rdot (rsub (values x) (values p1)) C = 0 -> Rabs (plane_distance p x) <= 250 * (u * M / S)).
  { intros x Lx Bx Ox. rewrite PL. assert (LVx : length (values x) = 3%nat) by (unfold values; now rewrite map_length).
    set (E := rscale (/ rnorm C) C). assert (LE : length E = 3%nat) by (unfold E, rscale; now rewrite map_length).
    rewrite (dot_split (values n) (values x) (values p1) E LVn LVx LV1 LE). assert (OE : rdot (rsub (values x) (values p1)) E = 0).
    { unfold E. rewrite rdot_scale_r, Ox. ring. }
    rewrite OE. assert (DN : Forall (fun z => Rabs z <= 39 * (u / S)) (zip Rminus (values n) E)).
    { unfold E, rscale. clear - NE. set (k := rnorm C) in *. clearbody k. unfold values. induction NE as [|a b ? ? NA _ IH]; [apply Forall_nil|]. cbn. apply Forall_cons; [|exact IH]. replace (B2R a - / k * b) with (B2R a - b / k) by (unfold Rdiv; ring). exact NA. }
    assert (LZ : length (zip Rminus (values n) E) = 3%nat). { clear - LVn LE. destruct (values n) as [|? [|? [|? [|]]]]; try discriminate. destruct E as [|? [|? [|? [|]]]]; try discriminate. reflexivity. }
    assert (LR : length (rsub (values x) (values p1)) = 3%nat). { clear - LVx LV1. destruct (values x) as [|? [|? [|? [|]]]]; try discriminate. destruct (values p1) as [|? [|? [|? [|]]]]; try discriminate. reflexivity. }
    assert (DS := dot_small _ _ _ _ LR LZ Bx DN). set (g := rdot _ (zip Rminus (values n) E)) in *. replace (3 * (2 * M * (39 * (u / S)))) with (234 * (u * M / S)) in DS by (field; lra). apply Rabs_le_inv in DS, HD'. apply Rabs_le. lra. }
  assert (OC : rdot e1 C = 0 /\ rdot e2 C = 0). { unfold C, corner. fold e1 e2. clear - L1 L2. destruct e1 as [|? [|? [|? [|]]]]; try discriminate. destruct e2 as [|? [|? [|? [|]]]]; try discriminate. cbn. split; ring. }
  intros x [<-|[<-|[<-|[]]]].
  - rewrite PL. apply Rabs_le_inv in HD'. apply Rabs_le. lra.
  - apply EDGE; [apply W2|exact Y2|apply OC].
  - apply EDGE; [apply W3|exact Y1|apply OC].
Qed.
Lemma from_points_F : let x := pl_from_points p1 p2 p3 in let p := snd x in
  (fst x = true -> ae - 42 * u - / bpow radix2 40 <= S)
  /\ (/ bpow radix2 30 <= S -> 1000 * u <= S -> ae + 42 * u <= S -> fst x = true)
  /\ (fst x = true -> / bpow radix2 30 <= S -> 1000 * u <= S -> nearly_unit (pl_normal p) /\ Forall2 (fun x y => Rabs (B2R x - y / rnorm C) <= 39 * (u / S)) (pl_normal p) C /\ is_finite (pl_dist p) = true
      /\ (forall q, In q [p1; p2; p3] -> Rabs (plane_distance p q) <= 250 * (u * M / S))
      /\ (bpow radix2 23 * (u * M) <= S -> forall q, In q [p1; p2; p3] -> pl_point_status p q point_status_epsilon = Inside)).
Proof.
  cbv zeta. destruct ae_near as (FA & _). assert (NF := normal_unfold). rewrite abs_finite in NF. unfold pl_from_points. rewrite NF. clear NF.
  destruct (is_finite q) eqn:FQ.
  - destruct (abs_ok prec emax q FQ) as (FAB & VAB). change (o_lt (sc_abs q) angle_epsilon) with (Bltb (sc_abs q) (angle_epsilon : fl)). rewrite (Flt prec emax _ _ FAB FA), VAB.
    case Rlt_bool_spec; intros LT; cbn [negb fst snd].
    + split; [discriminate|]. split; [|discriminate]. intros S30 SU SA. exfalso. destruct (quot_lower S30 SU) as (_ & QL). lra.
    + split; [intros _; assert (QU := quot_upper FQ); lra|]. split; [reflexivity|]. intros _ S30 SU. destruct (normal_ok S30 SU) as (NU & NE). destruct (plane_ok S30 SU) as (FD & BD & PD). split; [exact NU|]. split; [exact NE|]. split; [exact FD|]. split; [exact PD|].
      intros HT z Hz. destruct (u_small prec ltac:(assumption)) as (U0 & U1). destruct M_small as (MS & MS2 & MS4). assert (MM : M <= M * M) by nra. assert (MM4 : M * M <= M * M * (M * M)) by nra.
      assert (S0 : 0 < S) by lra. assert (UM : 0 < u * M) by (apply Rmult_lt_0_compat; lra). assert (SB : S <= 1) by apply cross_c.
      apply (inside_near prec emax ltac:(assumption) ltac:(lia) (pl_make p1 (v_normalize c)) z (4 * M) (250 * (u * M / S)) NU FD BD ltac:(lra)); [lra| |exact (PD z Hz)|].
      * assert (WZ : within M z) by (destruct Hz as [<-|[<-|[<-|[]]]]; assumption). destruct WZ as (Lz & Fz & Bz). split; [exact Lz|]. split; [exact Fz|]. eapply Forall_impl; [|exact Bz]. cbn beta. intros a Ha. lra.
      * assert (MSS : u * M / S <= / 8388608). { apply Rmult_le_reg_r with S; [exact S0|]. unfold Rdiv. rewrite Rmult_assoc, Rinv_l by lra. change (bpow radix2 23) with 8388608 in HT. lra. }
        assert (UMS : u * M <= u * M / S). { unfold Rdiv. rewrite <- (Rmult_1_r (u * M)) at 1. apply Rmult_le_compat_l; [lra|]. rewrite <- Rinv_1. apply Rinv_le; lra. } lra.
  - cbn [negb fst snd]. split; [discriminate|]. split; [|discriminate]. intros S30 SU _. exfalso. destruct (quot_lower S30 SU) as (QF & _). congruence.
Qed.
End Points.
End FP.
