(** The plane through three machine points (C107). *)
From Coq Require Import ZArith Reals List Lia Lra Bool Psatz.
From Flocq Require Import Core BinarySingleNaN.
From Verif Require Import Ops M_scalar M_vec M_geom Inst_F S_vec S_rnd S_hit S_tri P_ord P_ieee P_vec P_fp P_fp2 P_fp3 P_fp4 P_fp5 P_hit P_hit2 P_hit3 P_hit4 P_hit5 P_ft P_ft2.
Import ListNotations.
Local Open Scope R_scope.

Section FP.
Variables prec emax : Z.
Context {Hprec : Prec_gt_0 prec} {Hmax : Prec_lt_emax prec emax}.
Notation fl := (binary_float prec emax).
Notation u := (unit_roundoff prec).
Notation eta := (underflow_error prec emax).
Notation Om := (bpow radix2 emax).
Notation ae := (B2R (angle_epsilon : fl)).
Hypothesis U20 : (20 <= prec)%Z.
Hypothesis E80 : (80 <= emax)%Z.

Lemma E20 : (20 <= emax)%Z. Proof. lia. Qed.

Lemma edge_near : forall (p q : list fl) M, within M p -> within M q -> 4 * M <= Om -> 0 <= M ->
  Forall2 (fun x y => near x y (u * Rabs y) /\ Rabs y <= 2 * M) (v_sub p q) (rsub (values p) (values q)).
Proof.
  intros p q M (Lp & Fp & Bp) (Lq & Fq & Bq) HO M0. destruct (u_small prec ltac:(assumption)) as (U0 & U1).
  assert (ST : forall x y : fl, is_finite x = true -> is_finite y = true -> Rabs (B2R x) <= M -> Rabs (B2R y) <= M -> near (o_sub x y) (B2R x - B2R y) (u * Rabs (B2R x - B2R y)) /\ Rabs (B2R x - B2R y) <= 2 * M).
  { intros x y Fx Fy Bx By. assert (B : Rabs (B2R x - B2R y) <= 2 * M) by (apply Rabs_le_inv in Bx, By; apply Rabs_le; lra). split; [|exact B].
    destruct (Rle_lt_or_eq_dec 0 M M0) as [MP|MZ].
    - destruct (minus_ok prec emax x y Fx Fy) as (F & d & Hd & E); [assert (P := Rabs_pos (B2R x - B2R y)); nra|]. split; [exact F|]. match type of E with B2R ?a = _ => change (Rabs (B2R a - (B2R x - B2R y)) <= u * Rabs (B2R x - B2R y)) end. rewrite E.
      replace ((B2R x - B2R y) * (1 + d) - (B2R x - B2R y)) with (d * (B2R x - B2R y)) by ring. rewrite Rabs_mult. apply Rmult_le_compat_r; auto using Rabs_pos.
    - destruct (minus_ok prec emax x y Fx Fy) as (F & d & Hd & E); [assert (P := bpow_gt_0 radix2 emax); nra|]. split; [exact F|]. match type of E with B2R ?a = _ => change (Rabs (B2R a - (B2R x - B2R y)) <= u * Rabs (B2R x - B2R y)) end. rewrite E.
      replace ((B2R x - B2R y) * (1 + d) - (B2R x - B2R y)) with (d * (B2R x - B2R y)) by ring. rewrite Rabs_mult. apply Rmult_le_compat_r; auto using Rabs_pos. }
  destruct p as [|a0 [|a1 [|a2 [|]]]]; try discriminate. destruct q as [|b0 [|b1 [|b2 [|]]]]; try discriminate.
  inversion Fp as [|? ? G0 Fx']; subst. inversion Fx' as [|? ? G1 Fx'']; subst. inversion Fx'' as [|? ? G2 _]; subst.
  inversion Fq as [|? ? K0 Fn']; subst. inversion Fn' as [|? ? K1 Fn'']; subst. inversion Fn'' as [|? ? K2 _]; subst.
  unfold values in *. cbn [map] in *.
  inversion Bp as [|? ? H0 Bo1]; subst. inversion Bo1 as [|? ? H1 Bo2]; subst. inversion Bo2 as [|? ? H2 _]; subst.
  inversion Bq as [|? ? N0 Bn1]; subst. inversion Bn1 as [|? ? N1 Bn2]; subst. inversion Bn2 as [|? ? N2 _]; subst.
  unfold rsub, v_sub. cbn [zip map2]. apply Forall2_cons; [now apply ST|]. apply Forall2_cons; [now apply ST|]. apply Forall2_cons; [now apply ST|]. apply Forall2_nil.
Qed.

(** The cross product of two vectors that carry a rounding error each *)
Lemma cross_err : forall (a b : list fl) e f A B, Forall2 (fun x y => near x y (u * A) /\ Rabs y <= A) a e -> Forall2 (fun x y => near x y (u * B) /\ Rabs y <= B) b f ->
  length e = 3%nat -> length f = 3%nat -> rnorm e = A -> rnorm f = B -> 0 < A -> 0 < B -> 4 * (A * B) <= Om -> eta <= u * (A * B) / 100 ->
  length a = 3%nat /\ length b = 3%nat /\ Forall2 (fun x y => near x y (72 / 10 * (u * (A * B)))) (v_cross a b) (rcross e f) /\ rnorm (rcross e f) <= A * B.
Proof.
  intros a b e f A B Ha Hb Le Lf NA NB A0 B0 HO HE. destruct (u_small prec ltac:(assumption)) as (U0 & U1). destruct (eta_small prec emax E20) as (E0 & E1).
  assert (D0 : 0 < A * B) by (apply Rmult_lt_0_compat; lra). assert (UD : u * (A * B) <= A * B / 1000000) by nra. assert (UD2 : u * (u * (A * B)) <= u * (A * B) / 1000000) by nra. assert (UD0 : 0 < u * (A * B)) by (apply Rmult_lt_0_compat; lra).
  assert (CN : rnorm (rcross e f) <= A * B).
  { assert (LG := lagrange e f Le Lf). assert (EE : rnorm e * rnorm e = rdot e e) by (apply sqrt_sqrt, rdot_nonneg). assert (FF : rnorm f * rnorm f = rdot f f) by (apply sqrt_sqrt, rdot_nonneg). rewrite NA in EE. rewrite NB in FF.
    unfold rnorm at 1. apply sqrt_upto; [lra|]. rewrite LG, <- EE, <- FF. assert (P := Rle_0_sqr (rdot e f)). unfold Rsqr in P. lra. }
  assert (CC : forall z, In z (rcross e f) -> Rabs z <= A * B) by (intros z Hz; apply Rle_trans with (2 := CN); now apply component_le_norm).
  assert (OB := om_big emax E20).
  assert (ST : forall (x y z w : fl) x' y' z' w', near x x' (u * A) /\ Rabs x' <= A -> near z z' (u * A) /\ Rabs z' <= A -> near y y' (u * B) /\ Rabs y' <= B -> near w w' (u * B) /\ Rabs w' <= B -> Rabs (x' * y' - z' * w') <= A * B ->
    near (o_sub (o_mul x y) (o_mul z w)) (x' * y' - z' * w') (72 / 10 * (u * (A * B)))).
  { intros x y z w x' y' z' w' (Nx & Bx) (Nz & Bz) (Ny & By) (Nw & Bw) BC.
    assert (OV : (A + u * A) * (B + u * B) * (1 + u) + eta < Om).
    { replace ((A + u * A) * (B + u * B) * (1 + u) + eta) with (A * B * ((1 + u) * (1 + u) * (1 + u)) + eta) by ring. assert (UU : u * u <= u) by nra. assert (UUU : u * (u * u) <= u) by nra. assert (K : (1 + u) * (1 + u) * (1 + u) <= 2) by lra.
      assert (K2 : A * B * ((1 + u) * (1 + u) * (1 + u)) <= A * B * 2) by (apply Rmult_le_compat_l; lra). lra. }
    assert (N1 := near_mul prec emax x y _ _ _ _ A B Nx Ny Bx By OV). assert (N2 := near_mul prec emax z w _ _ _ _ A B Nz Nw Bz Bw OV).
    set (err := A * (u * B) + B * (u * A) + u * A * (u * B) + u * ((A + u * A) * (B + u * B)) + eta) in *.
    assert (EB : err <= 302 / 100 * (u * (A * B))). { unfold err. replace (A * (u * B) + B * (u * A) + u * A * (u * B) + u * ((A + u * A) * (B + u * B)) + eta) with (3 * (u * (A * B)) + 3 * (u * (u * (A * B))) + u * (u * (u * (A * B))) + eta) by ring. assert (u * (u * (u * (A * B))) <= u * (u * (A * B))) by nra. lra. }
    assert (EB0 : 0 <= err). { unfold err. assert (0 <= u * A) by nra. assert (0 <= u * B) by nra. assert (0 <= A * (u * B)) by nra. assert (0 <= B * (u * A)) by nra. assert (0 <= u * A * (u * B)) by nra. assert (0 <= (A + u * A) * (B + u * B)) by nra. assert (0 <= u * ((A + u * A) * (B + u * B))) by nra. lra. }
    clearbody err. assert (N3 := near_sub prec emax _ _ _ _ _ _ (A * B) N1 N2 BC). eapply near_le; [apply N3; nra|]. nra. }
  destruct e as [|e0 [|e1 [|e2 [|]]]]; try discriminate. destruct f as [|f0 [|f1 [|f2 [|]]]]; try discriminate.
  inversion Ha as [|a0 ? ? ? G0 Ha1]; subst. inversion Ha1 as [|a1 ? ? ? G1 Ha2]; subst. inversion Ha2 as [|a2 ? ? ? G2 Ha3]; subst. inversion Ha3; subst.
  inversion Hb as [|b0 ? ? ? K0 Hb1]; subst. inversion Hb1 as [|b1 ? ? ? K1 Hb2]; subst. inversion Hb2 as [|b2 ? ? ? K2 Hb3]; subst. inversion Hb3; subst.
  split; [reflexivity|]. split; [reflexivity|]. split; [|exact CN].
  assert (C0 := CC _ (or_introl eq_refl)). assert (C1 := CC _ (or_intror (or_introl eq_refl))). assert (C2 := CC _ (or_intror (or_intror (or_introl eq_refl)))).
  unfold v_cross, vget. cbn [nth]. cbn [rcross]. apply Forall2_cons; [now apply ST|]. apply Forall2_cons; [now apply ST|]. apply Forall2_cons; [now apply ST|]. apply Forall2_nil.
Qed.

(** Sizes near the origin are no problem where the edges are not extremely short. *)
Lemma tiny : forall M A B, 1 <= M -> bpow radix2 80 * (M * M * (M * M)) <= Om -> / M <= A -> / M <= B ->
  let w := bpow radix2 (2 - emax) in let k := / bpow radix2 78 in eta = u * w /\ 0 < w /\ w <= k /\ w <= k * (A * B) /\ w <= k * (A * B * (A * B)) /\ w <= k * (/ M * / M).
Proof.
  intros M A B M1 HM HA HB w k. assert (W0 : 0 < w) by apply bpow_gt_0. split; [apply eta_u|]. split; [exact W0|].
  assert (I0 : 0 < / M) by (apply Rinv_0_lt_compat; lra). assert (I1 : / M <= 1) by (rewrite <- Rinv_1; apply Rinv_le; lra).
  assert (WO : w * Om = 4). { unfold w. rewrite <- bpow_plus. replace (2 - emax + emax)%Z with 2%Z by lia. reflexivity. }
  assert (K0 : 0 < k) by (apply Rinv_0_lt_compat, bpow_gt_0).
  assert (WM : w <= k * (/ M * / M * (/ M * / M))).
  { apply Rmult_le_reg_r with (bpow radix2 80 * (M * M * (M * M))). { assert (0 < M * M) by (apply Rmult_lt_0_compat; lra). apply Rmult_lt_0_compat; [apply bpow_gt_0|apply Rmult_lt_0_compat; assumption]. }
    apply Rle_trans with (w * Om); [apply Rmult_le_compat_l; lra|]. rewrite WO.
    replace (k * (/ M * / M * (/ M * / M)) * (bpow radix2 80 * (M * M * (M * M)))) with (k * bpow radix2 80) by (field; lra).
    unfold k. change 80%Z with (2 + 78)%Z. rewrite bpow_plus. change (bpow radix2 2) with 4. rewrite (Rmult_comm 4), <- Rmult_assoc, Rinv_l by (apply Rgt_not_eq, bpow_gt_0). lra. }
  assert (D : / M * / M <= A * B) by (apply Rmult_le_compat; lra). assert (DD : / M * / M * (/ M * / M) <= A * B * (A * B)) by (assert (0 <= / M * / M) by nra; apply Rmult_le_compat; lra).
  assert (J : 0 <= / M * / M <= 1) by nra. assert (JJ : / M * / M * (/ M * / M) <= / M * / M) by nra.
  split; [apply Rle_trans with (1 := WM); rewrite <- (Rmult_1_r k) at 2; apply Rmult_le_compat_l; lra|].
  split; [apply Rle_trans with (1 := WM); apply Rmult_le_compat_l; lra|].
  split; [apply Rle_trans with (1 := WM); apply Rmult_le_compat_l; lra|]. apply Rle_trans with (1 := WM); apply Rmult_le_compat_l; lra.
Qed.

(** Which lengths are far from underflow and overflow *)
Lemma moderate_in : forall a M, 1 <= M -> bpow radix2 80 * (M * M * (M * M)) <= Om -> / (bpow radix2 33 * (M * M)) <= rnorm a <= bpow radix2 8 * (M * M) -> moderate emax a.
Proof.
  intros a M M1 HM (H1 & H2). assert (HR := half_range emax). set (h := (emax / 2)%Z) in *. unfold moderate. fold h.
  set (H := bpow radix2 (h - 1)). assert (P : 0 < H) by apply bpow_gt_0.
  assert (MM : 1 <= M * M) by nra. assert (BS : bpow radix2 38 * (M * M) <= H).
  { destruct (Rle_lt_dec (bpow radix2 38 * (M * M)) H) as [|X]; [assumption|exfalso].
    assert (HH : 8 * (H * H) >= Om). { unfold H. rewrite <- bpow_plus. change 8 with (bpow radix2 3). rewrite <- bpow_plus. apply Rle_ge, bpow_le. lia. }
    assert (Y : H * H < bpow radix2 38 * (M * M) * (bpow radix2 38 * (M * M))) by (apply Rmult_le_0_lt_compat; lra).
    replace (bpow radix2 38 * (M * M) * (bpow radix2 38 * (M * M))) with (bpow radix2 76 * (M * M * (M * M))) in Y by (change 76%Z with (38 + 38)%Z; rewrite bpow_plus; ring).
    replace (bpow radix2 80 * (M * M * (M * M))) with (16 * (bpow radix2 76 * (M * M * (M * M)))) in HM by (change 80%Z with (4 + 76)%Z; rewrite bpow_plus; change (bpow radix2 4) with 16; ring). assert (0 < H * H) by (apply Rmult_lt_0_compat; exact P). lra. }
  split.
  - apply Rle_trans with (2 := H1). replace (4 - h)%Z with (- (h - 4))%Z by lia. rewrite bpow_opp. apply Rinv_le; [apply Rmult_lt_0_compat; [apply bpow_gt_0|lra]|].
    apply Rmult_le_reg_l with (bpow radix2 3); [apply bpow_gt_0|]. rewrite <- bpow_plus. replace (3 + (h - 4))%Z with (h - 1)%Z by lia. fold H. apply Rle_trans with (2 := BS). rewrite <- Rmult_assoc, <- bpow_plus. apply Rmult_le_compat_r; [lra|]. apply bpow_le. lia.
  - apply Rle_trans with (1 := H2). apply Rle_trans with (2 := BS). apply Rmult_le_compat_r; [lra|]. apply bpow_le. lia.
Qed.

(** The length of an edge *)
Lemma edge_length : forall (v : list fl) e A M, Forall2 (fun x y => near x y (u * Rabs y)) v e -> length e = 3%nat -> rnorm e = A -> 1 <= M -> bpow radix2 80 * (M * M * (M * M)) <= Om -> / M <= A -> A <= 4 * M ->
  near (v_length v) A (52 / 10 * (u * A)).
Proof.
  intros v e A M H Le NA M1 HM A1 A2. destruct (u_small prec ltac:(assumption)) as (U0 & U1).
  assert (Lv : length v = 3%nat) by (rewrite <- Le; clear - H; induction H; cbn; congruence). assert (I0 : 0 < / M) by (apply Rinv_0_lt_compat; lra).
  assert (FV : all_finite v). { clear - H. induction H as [|? ? ? ? N _ IH]; [apply Forall_nil|]. apply Forall_cons; [apply N|exact IH]. }
  assert (NC : Rabs (rnorm (values v) - A) <= u * A + INR (length e) * 0).
  { rewrite <- NA. apply norm_close; [lra|lra|]. clear - H. unfold values. induction H as [|? ? ? ? N _ IH]; [apply Forall2_nil|]. apply Forall2_cons; [destruct N; lra|exact IH]. }
  rewrite Rmult_0_r, Rplus_0_r in NC. apply Rabs_le_inv in NC. assert (UA : u * A <= A / 1000000) by nra. assert (UA0 : 0 < u * A) by (apply Rmult_lt_0_compat; lra).
  assert (MM : M <= M * M) by nra. assert (MO : moderate emax (values v)).
  { apply moderate_in with M; auto. split.
    - apply Rle_trans with (/ (2 * M)); [apply Rinv_le; [lra|]|rewrite Rinv_mult; lra]. assert (2 <= bpow radix2 33) by (change 2 with (bpow radix2 1); apply bpow_le; lia). apply Rmult_le_compat; lra.
    - change (bpow radix2 8) with 256. lra. }
  destruct (length_ok prec emax v FV) as (FL & HL); [rewrite Lv; apply few3; assumption|exact MO|]. split; [exact FL|]. rewrite Lv in HL. cbn [Nat.add INR] in HL. apply Rabs_le_inv in HL. set (r := rnorm (values v)) in *.
  assert (UR : u * r <= 1001 / 1000 * (u * A)) by nra. apply Rabs_le. lra.
Qed.
End FP.
