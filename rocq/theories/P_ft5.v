(** The quaternion between two machine vectors rotates the one onto the other (C106). *)
From Coq Require Import ZArith Reals List Lia Lra Bool Psatz.
From Flocq Require Import Core BinarySingleNaN.
From Verif Require Import Ops M_scalar M_vec M_quat Inst_F S_vec S_rnd S_hit S_quat S_ft P_ord P_ieee P_vec P_fp P_fp2 P_fp3 P_fp4 P_fp5 P_hit P_hit2 P_hit3 P_hit4 P_ft P_ft2 P_ft3 P_ft4.
Import ListNotations.
Local Open Scope R_scope.

(** The direction of a cross product *)
Lemma direction : forall X f, length X = 3%nat -> length f = 3%nat -> / 1250 <= rdot X X -> rdot X f = 0 -> let w := rscale (/ rnorm X) X in
  length w = 3%nat /\ rdot w w = 1 /\ rdot w f = 0.
Proof.
  intros X f LX Lf HX XF w. assert (RR : rnorm X * rnorm X = rdot X X) by (apply sqrt_sqrt, rdot_nonneg). assert (R0 : rnorm X <> 0) by (intros Z; rewrite Z in RR; lra). set (R := rnorm X) in *. unfold w. clear w. clearbody R.
  split; [unfold rscale; now rewrite map_length|]. destruct X as [|x [|y [|z [|]]]]; try discriminate. destruct f as [|fx [|fy [|fz [|]]]]; try discriminate. unfold rscale. cbn [map rdot] in *. split.
  - transitivity (/ (R * R) * (x * x + (y * y + (z * z + 0)))); [field; exact R0|]. rewrite <- RR. field. exact R0.
  - transitivity (/ R * (x * fx + (y * fy + (z * fz + 0)))); [ring|]. rewrite XF. ring.
Qed.
Lemma cross_facts : forall f t, length f = 3%nat -> length t = 3%nat -> length (rcross f t) = 3%nat /\ rdot (rcross f t) f = 0.
Proof. intros f t Lf Lt. destruct f as [|fx [|fy [|fz [|]]]]; try discriminate. destruct t as [|tx [|ty [|tz [|]]]]; try discriminate. split; [reflexivity|]. cbn. ring. Qed.

Section FP.
Variables prec emax : Z.
Context {Hprec : Prec_gt_0 prec} {Hmax : Prec_lt_emax prec emax}.
Notation fl := (binary_float prec emax).
Context {lm : libm fl}.
Notation u := (unit_roundoff prec).
Notation eta := (underflow_error prec emax).
Notation Om := (bpow radix2 emax).
Notation az := (B2R (almost_zero : fl)).
Hypothesis U20 : (20 <= prec)%Z.
Hypothesis E20 : (20 <= emax)%Z.
Hypothesis ACC : accurate lm.

Lemma half_turn : near (to_radians (cst 180) : fl) PI (40 * u).
Proof.
  destruct (u_small prec ltac:(assumption)) as (U0 & U1). destruct (eta_small prec emax ltac:(assumption)) as (E0 & E1). assert (OB := om_big emax ltac:(assumption)).
  assert (P20 : (2 ^ 20 <= 2 ^ prec)%Z) by (apply Z.pow_le_mono_r; lia). destruct (F_cst prec emax 180 ltac:(lia)) as (F2 & V2). assert (P4 := PI_4). assert (P0 := PI_RGT_0).
  assert (NP := acc_pi lm ACC). assert (BP : Rabs PI <= 4) by (rewrite Rabs_pos_eq; lra).
  assert (N180 : near (cst 180 : fl) 180 0) by (rewrite <- V2; now apply near_exact).
  destruct (near_mul prec emax (cst 180) k_pi 180 PI 0 (8 * u) 180 4 N180 NP) as (FM & HM); [rewrite Rabs_pos_eq; lra|exact BP|nra|].
  assert (HM' : Rabs (B2R (o_mul (cst 180) k_pi) - 180 * PI) <= 2170 * u) by nra. clear HM. apply Rabs_le_inv in HM'.
  destruct (div_ok prec emax (o_mul (cst 180) k_pi) (@cst _ (Fops prec emax _ _) 180) FM) as (FD & d & e & Hd & He & ED).
  { rewrite V2. lra. } { rewrite V2. assert (Rabs (B2R (o_mul (cst 180) (k_pi : fl)) / 180) <= 5) by (apply Rabs_le; lra). nra. }
  split; [exact FD|]. match type of ED with B2R ?x = _ => change (Rabs (B2R x - PI) <= 40 * u) end. rewrite ED, V2. set (N := B2R (o_mul (cst 180) k_pi)) in *.
  assert (NB : Rabs (N / 180) <= 5) by (apply Rabs_le; lra). assert (X : Rabs (N / 180 * d) <= 5 * u) by (rewrite Rabs_mult; apply Rmult_le_compat; auto using Rabs_pos). apply Rabs_le_inv in X, He. apply Rabs_le. lra.
Qed.

Lemma from_to_cases : forall f t : list fl, nearly_unit f -> nearly_unit t -> let c := rdot (values f) (values t) in
  exists q, q_from_to f t = Ret q /\ quat_finite q /\ Rabs (rq_norm2 (quat_values q) - 1) <= 9000 * u
  /\ (Rabs (c - 1) <= az + 12 * u /\ Forall2 (fun x y => near x y (80000 * u)) (q_rotate q f) (values f)
      \/ Rabs (c + 1) <= az + 12 * u /\ Forall2 (fun x y => near x y (80000 * u)) (q_rotate q f) (rneg (values f))
      \/ Rabs c <= 1 - az + 12 * u /\ Forall2 (fun x y => near x y (80000 * u)) (q_rotate q f) (values t)).
Proof.
  intros f t Hf Ht c. destruct (u_small prec ltac:(assumption)) as (U0 & U1). destruct (az_near prec emax ltac:(assumption) ltac:(assumption)) as (Fa & Va). apply Rabs_le_inv in Va.
  assert (WK : forall (g : list fl) y, Forall2 (fun x y => near x y (27000 * u)) g y -> Forall2 (fun x y => near x y (80000 * u)) g y).
  { intros g y H. induction H as [|? ? ? ? N _ IH]; [apply Forall2_nil|]. apply Forall2_cons; [eapply near_le; [exact N|lra]|exact IH]. }
  assert (Lf : length (values f) = 3%nat) by (unfold values; rewrite map_length; apply Hf). assert (Lt : length (values t) = 3%nat) by (unfold values; rewrite map_length; apply Ht).
  destruct (from_to_raw prec emax ltac:(assumption) ltac:(assumption) f t Hf Ht) as (axis & angle & E & NU & [(EA & EG & HC)|[((w' & Hw & HX & EA) & _ & EG & HC)|(HX & _ & _ & EA & EG & HC)]]); fold c in HC.
  - subst axis angle. destruct (F_cst0 prec emax) as (F0 & V0). destruct (F_cst1 prec emax) as (F1 & V1).
    assert (NA : near (cst 0 : fl) 0 (40 * u)). { split; [exact F0|]. rewrite V0, Rminus_diag_eq, Rabs_R0 by reflexivity. lra. }
    destruct (spin_close prec emax ltac:(assumption) ltac:(assumption) ACC pos_z3 [0; 0; 1] (cst 0) 0 eq_refl (proj1 (proj2 NU))) as (QF & _ & QN & QR); [|cbn; ring|exact NA|rewrite Rabs_R0; lra|].
    { unfold pos_z3. apply Forall2_cons; [rewrite V0, Rminus_diag_eq, Rabs_R0 by reflexivity; lra|]. apply Forall2_cons; [rewrite V0, Rminus_diag_eq, Rabs_R0 by reflexivity; lra|]. apply Forall2_cons; [rewrite V1, Rminus_diag_eq, Rabs_R0 by reflexivity; lra|]. apply Forall2_nil. }
    eexists. split; [exact E|]. split; [exact QF|]. split; [exact QN|]. left. split; [exact HC|]. apply WK. specialize (QR f Hf).
    replace (rq_rotate (Q (cos (0 / 2)) (rscale (sin (0 / 2)) [0; 0; 1])) (values f)) with (values f) in QR; [exact QR|].
    replace (0 / 2) with 0 by field. rewrite cos_0, sin_0. clear - Lf. destruct (values f) as [|f0 [|f1 [|f2 [|]]]]; try discriminate. unfold rscale. cbn [map]. rewrite rotate_poly. f_equal; [ring|]. f_equal; [ring|]. f_equal. ring.
  - subst axis angle. assert (Lw : length (values w') = 3%nat) by (unfold values; rewrite map_length; apply Hw). destruct (cross_facts (values f) (values w') Lf Lw) as (LX & XF).
    destruct (direction _ (values f) LX Lf HX XF) as (Ld & D1 & DF). assert (AC := axis_close prec emax ltac:(assumption) ltac:(assumption) f w' Hf Hw HX). set (w := rscale (/ rnorm (rcross (values f) (values w'))) (rcross (values f) (values w'))) in *.
    assert (BP : Rabs PI <= 4) by (assert (P4 := PI_4); assert (P0 := PI_RGT_0); rewrite Rabs_pos_eq; lra).
    destruct (spin_close prec emax ltac:(assumption) ltac:(assumption) ACC _ w (to_radians (cst 180)) PI (proj1 NU) (proj1 (proj2 NU)) AC D1 half_turn BP) as (QF & _ & QN & QR).
    eexists. split; [exact E|]. split; [exact QF|]. split; [exact QN|]. right. left. split; [exact HC|]. apply WK. specialize (QR f Hf). rewrite (exact_rotation w (values f) PI Ld Lf D1 DF), cos_PI, sin_PI in QR.
    replace (radd (rscale (-1) (values f)) (rscale 0 (rcross w (values f)))) with (rneg (values f)) in QR; [exact QR|].
    clear - Lf Ld. destruct (values f) as [|f0 [|f1 [|f2 [|]]]]; try discriminate. destruct w as [|w0 [|w1 [|w2 [|]]]]; try discriminate. unfold rneg, radd, rscale. cbn. f_equal; [ring|]. f_equal; [ring|]. f_equal. ring.
  - subst axis angle. destruct (cross_facts (values f) (values t) Lf Lt) as (LX & XF).
    destruct (direction _ (values f) LX Lf HX XF) as (Ld & D1 & DF). assert (AC := axis_close prec emax ltac:(assumption) ltac:(assumption) f t Hf Ht HX). set (w := rscale (/ rnorm (rcross (values f) (values t))) (rcross (values f) (values t))) in *.
    destruct (den_near prec emax ltac:(assumption) ltac:(assumption) f t Hf Ht) as (FC & HD). fold c in HD. set (x := v_dot f t) in *. set (xr := B2R x) in *. assert (HC' := Rabs_le_inv _ _ HC). assert (HD' := Rabs_le_inv _ _ HD).
    assert (X1 : -1 <= xr <= 1) by lra. assert (NA : near (f_acos x) (acos xr) (40 * u)). { eapply near_le; [apply (acc_acos lm ACC x FC); apply Rabs_le; exact X1|lra]. }
    assert (BP : Rabs (acos xr) <= 4) by (assert (P4 := PI_4); destruct (acos_bound xr); rewrite Rabs_pos_eq; lra).
    destruct (spin_close prec emax ltac:(assumption) ltac:(assumption) ACC _ w (f_acos x) (acos xr) (proj1 NU) (proj1 (proj2 NU)) AC D1 NA BP) as (QF & _ & QN & QR).
    eexists. split; [exact E|]. split; [exact QF|]. split; [exact QN|]. right. right. split; [exact HC|]. specialize (QR f Hf). rewrite (exact_rotation w (values f) (acos xr) Ld Lf D1 DF), cos_acos, sin_acos in QR by exact X1.
    set (g := q_rotate _ f) in *. clearbody g.
    destruct (unit_facts prec emax ltac:(assumption) f Hf) as (Bf & QFF & _). destruct (unit_facts prec emax ltac:(assumption) t Ht) as (Bt & QTT & _). apply Rabs_le_inv in QFF, QTT.
    assert (LG := lagrange (values f) (values t) Lf Lt). fold c in LG. set (ff := rdot (values f) (values f)) in *. set (tt := rdot (values t) (values t)) in *.
    assert (RR : rnorm (rcross (values f) (values t)) * rnorm (rcross (values f) (values t)) = ff * tt - c * c) by (rewrite <- LG; apply sqrt_sqrt, rdot_nonneg). set (R := rnorm (rcross (values f) (values t))) in *.
    assert (R0 : 0 <= R) by apply sqrt_pos. set (S := sqrt (1 - xr * xr)).
    assert (SS : S * S = 1 - xr * xr) by (apply sqrt_sqrt; nra). assert (S0 : 0 <= S) by apply sqrt_pos.
    assert (FT1 : (1 - 33 * u) * (1 - 33 * u) <= ff * tt) by (apply Rmult_le_compat; lra). assert (FT2 : ff * tt <= (1 + 33 * u) * (1 + 33 * u)) by (apply Rmult_le_compat; lra).
    assert (C2 : c * c <= (1 - 97 / 100000) * (1 - 97 / 100000)) by nra. assert (X2 : Rabs (xr * xr - c * c) <= 23 * u). { replace (xr * xr - c * c) with ((xr - c) * (xr + c)) by ring. rewrite Rabs_mult. apply Rle_trans with (11 * u * 201 / 100); [|lra]. unfold Rdiv. rewrite Rmult_assoc. apply Rmult_le_compat; auto using Rabs_pos. apply Rabs_le. lra. }
    apply Rabs_le_inv in X2. assert (UU : u * u <= u / 1000000) by nra.
    assert (SR : Rabs (S * S - R * R) <= 91 * u) by (rewrite SS, RR; clear - FT1 FT2 UU X2 U0 U1; apply Rabs_le; split; nra).
    assert (RL : / 24 <= R) by (clear - RR R0 C2 FT1 UU U0 U1; nra). assert (SL : / 24 <= S) by (clear - SS S0 X2 C2 UU U0 U1; nra).
    assert (DSR : Rabs (S - R) <= 1092 * u). { replace (S * S - R * R) with ((S - R) * (S + R)) in SR by ring. rewrite Rabs_mult, (Rabs_pos_eq (S + R)) in SR by lra. assert (P := Rabs_pos (S - R)). nra. }
    assert (K : Rabs (S / R - 1) <= 26300 * u).
    { replace (S / R - 1) with ((S - R) * / R) by (field; lra). rewrite Rabs_mult. assert (I : 0 < / R <= 24) by (split; [apply Rinv_0_lt_compat; lra|rewrite <- (Rinv_inv 24); apply Rinv_le; lra]). rewrite (Rabs_pos_eq (/ R)) by lra. apply Rle_trans with (1092 * u * 24); [apply Rmult_le_compat; auto using Rabs_pos; lra|lra]. }
    set (k := S / R) in *. assert (K' := Rabs_le_inv _ _ K).
    assert (KF : Rabs (xr - c * k) <= 26400 * u). { replace (xr - c * k) with ((xr - c) - c * (k - 1)) by ring. assert (P : Rabs (c * (k - 1)) <= 1 * (26300 * u)) by (rewrite Rabs_mult; apply Rmult_le_compat; auto using Rabs_pos; lra). apply Rabs_le_inv in P. apply Rabs_le. lra. }
    assert (KT : Rabs (k * ff - 1) <= 26400 * u). { replace (k * ff - 1) with ((k - 1) + k * (ff - 1)) by ring. assert (P : Rabs (k * (ff - 1)) <= 2 * (33 * u)) by (rewrite Rabs_mult; apply Rmult_le_compat; auto using Rabs_pos; apply Rabs_le; lra). apply Rabs_le_inv in P. apply Rabs_le. lra. }
    assert (VE : radd (rscale xr (values f)) (rscale (sqrt (1 - xr²)) (rcross w (values f))) = map2 (fun a b => b + ((xr - c * k) * a + (k * ff - 1) * b)) (values f) (values t)).
    { change (sqrt (1 - xr²)) with S. unfold w, k, ff, c. assert (RN : R <> 0) by lra. clearbody R S xr. clear - Lf Lt RN. destruct (values f) as [|f0 [|f1 [|f2 [|]]]]; try discriminate. destruct (values t) as [|t0 [|t1 [|t2 [|]]]]; try discriminate.
      unfold radd, rscale. cbn. f_equal; [field; exact RN|]. f_equal; [field; exact RN|]. f_equal. field. exact RN. }
    rewrite VE in QR. clear - QR KF KT Bf Bt Lf Lt U0. destruct (values f) as [|f0 [|f1 [|f2 [|]]]]; try discriminate. destruct (values t) as [|t0 [|t1 [|t2 [|]]]]; try discriminate. cbn [map2] in QR.
    inversion QR as [|g0 ? ? ? (I0 & J0) RN1]; subst. inversion RN1 as [|g1 ? ? ? (I1 & J1) RN2]; subst. inversion RN2 as [|g2 ? ? ? (I2 & J2) RN3]; subst. inversion RN3; subst.
    inversion Bf as [|? ? B0 BW1]; subst. inversion BW1 as [|? ? B1 BW2]; subst. inversion BW2 as [|? ? B2 _]; subst. inversion Bt as [|? ? D0 BV1]; subst. inversion BV1 as [|? ? D1 BV2]; subst. inversion BV2 as [|? ? D2 _]; subst.
    assert (FIN : forall a b y, Rabs a <= 1001 / 1000 -> Rabs b <= 1001 / 1000 -> Rabs (y - (b + ((xr - c * k) * a + (k * ff - 1) * b))) <= 27000 * u -> Rabs (y - b) <= 80000 * u).
    { intros a b y A B Y. assert (P1 : Rabs ((xr - c * k) * a) <= 26400 * u * (1001 / 1000)) by (rewrite Rabs_mult; apply Rmult_le_compat; auto using Rabs_pos). assert (P2 : Rabs ((k * ff - 1) * b) <= 26400 * u * (1001 / 1000)) by (rewrite Rabs_mult; apply Rmult_le_compat; auto using Rabs_pos).
      apply Rabs_le_inv in P1, P2, Y. apply Rabs_le. lra. }
    apply Forall2_cons; [split; [exact I0|exact (FIN _ _ _ B0 D0 J0)]|]. apply Forall2_cons; [split; [exact I1|exact (FIN _ _ _ B1 D1 J1)]|]. apply Forall2_cons; [split; [exact I2|exact (FIN _ _ _ B2 D2 J2)]|]. apply Forall2_nil.
Qed.
End FP.

Section FP2.
Variables prec emax : Z.
Context {Hprec : Prec_gt_0 prec} {Hmax : Prec_lt_emax prec emax}.
Notation fl := (binary_float prec emax).
Context {lm : libm fl}.
Notation u := (unit_roundoff prec).
Notation eta := (underflow_error prec emax).
Notation Om := (bpow radix2 emax).
Notation az := (B2R (almost_zero : fl)).

Lemma from_to_ok : (20 <= prec)%Z -> (20 <= emax)%Z -> accurate lm -> forall f t : list fl, nearly_unit f -> nearly_unit t -> let c := rdot (values f) (values t) in
  exists q, q_from_to f t = Ret q /\ quat_finite q /\ Rabs (rq_norm2 (quat_values q) - 1) <= 9000 * u
  /\ (Rabs c < 1 - az - 12 * u -> Forall2 (fun x y => near x y (80000 * u)) (q_rotate q f) (values t))
  /\ (Rabs (c - 1) < az - 12 * u -> Forall2 (fun x y => near x y (80000 * u)) (q_rotate q f) (values f))
  /\ (Rabs (c + 1) < az - 12 * u -> Forall2 (fun x y => near x y (80000 * u)) (q_rotate q f) (rneg (values f)))
  /\ Forall2 (fun x y => near x y (/ 20 + 80000 * u)) (q_rotate q f) (values t).
Proof.
  intros U20 E20 ACC f t Hf Ht c. destruct (u_small prec ltac:(assumption)) as (U0 & U1). destruct (az_near prec emax ltac:(assumption) ltac:(assumption)) as (Fa & Va). apply Rabs_le_inv in Va.
  destruct (from_to_cases prec emax U20 E20 ACC f t Hf Ht) as (q & E & QF & QN & H). fold c in H. exists q. split; [exact E|]. split; [exact QF|]. split; [exact QN|]. set (g := q_rotate q f) in *. clearbody g.
  destruct (unit_facts prec emax ltac:(assumption) f Hf) as (_ & FF & _). destruct (unit_facts prec emax ltac:(assumption) t Ht) as (_ & TT & _). apply Rabs_le_inv in FF, TT.
  assert (Lf : length (values f) = 3%nat) by (unfold values; rewrite map_length; apply Hf). assert (Lt : length (values t) = 3%nat) by (unfold values; rewrite map_length; apply Ht).
  destruct H as [(HC & G)|[(HC & G)|(HC & G)]].
  - split; [intros X; exfalso; revert X HC; unfold Rabs; repeat destruct Rcase_abs; lra|]. split; [intros _; exact G|]. split; [intros X; exfalso; revert X HC; unfold Rabs; repeat destruct Rcase_abs; lra|].
    unfold c in HC. clear c. destruct (values f) as [|f0 [|f1 [|f2 [|]]]]; try discriminate. destruct (values t) as [|t0 [|t1 [|t2 [|]]]]; try discriminate. cbn [rdot] in *. apply Rabs_le_inv in HC.
    inversion G as [|g0 ? ? ? (I0 & J0) RN1]; subst. inversion RN1 as [|g1 ? ? ? (I1 & J1) RN2]; subst. inversion RN2 as [|g2 ? ? ? (I2 & J2) RN3]; subst. inversion RN3; subst.
    assert (SUM : (f0 - t0) * (f0 - t0) + (f1 - t1) * (f1 - t1) + (f2 - t2) * (f2 - t2) <= / 20 * / 20) by lra. assert (N0 := Rle_0_sqr (f0 - t0)). assert (N1 := Rle_0_sqr (f1 - t1)). assert (N2 := Rle_0_sqr (f2 - t2)). unfold Rsqr in *.
    assert (B : forall y, y * y <= / 20 * / 20 -> - / 20 <= y <= / 20) by (intros y Y; nra). assert (B0 := B (f0 - t0) ltac:(lra)). assert (B1 := B (f1 - t1) ltac:(lra)). assert (B2 := B (f2 - t2) ltac:(lra)). apply Rabs_le_inv in J0, J1, J2.
    apply Forall2_cons; [split; [exact I0|apply Rabs_le; lra]|]. apply Forall2_cons; [split; [exact I1|apply Rabs_le; lra]|]. apply Forall2_cons; [split; [exact I2|apply Rabs_le; lra]|]. apply Forall2_nil.
  - split; [intros X; exfalso; revert X HC; unfold Rabs; repeat destruct Rcase_abs; lra|]. split; [intros X; exfalso; revert X HC; unfold Rabs; repeat destruct Rcase_abs; lra|]. split; [intros _; exact G|].
    unfold c in HC. clear c. destruct (values f) as [|f0 [|f1 [|f2 [|]]]]; try discriminate. destruct (values t) as [|t0 [|t1 [|t2 [|]]]]; try discriminate. unfold rneg in G. cbn [rdot map] in *. apply Rabs_le_inv in HC.
    inversion G as [|g0 ? ? ? (I0 & J0) RN1]; subst. inversion RN1 as [|g1 ? ? ? (I1 & J1) RN2]; subst. inversion RN2 as [|g2 ? ? ? (I2 & J2) RN3]; subst. inversion RN3; subst.
    assert (SUM : (f0 + t0) * (f0 + t0) + (f1 + t1) * (f1 + t1) + (f2 + t2) * (f2 + t2) <= / 20 * / 20) by lra. assert (N0 := Rle_0_sqr (f0 + t0)). assert (N1 := Rle_0_sqr (f1 + t1)). assert (N2 := Rle_0_sqr (f2 + t2)). unfold Rsqr in *.
    assert (B : forall y, y * y <= / 20 * / 20 -> - / 20 <= y <= / 20) by (intros y Y; nra). assert (B0 := B (f0 + t0) ltac:(lra)). assert (B1 := B (f1 + t1) ltac:(lra)). assert (B2 := B (f2 + t2) ltac:(lra)). apply Rabs_le_inv in J0, J1, J2.
    apply Forall2_cons; [split; [exact I0|apply Rabs_le; lra]|]. apply Forall2_cons; [split; [exact I1|apply Rabs_le; lra]|]. apply Forall2_cons; [split; [exact I2|apply Rabs_le; lra]|]. apply Forall2_nil.
  - split; [intros _; exact G|]. split; [intros X; exfalso; revert X HC; unfold Rabs; repeat destruct Rcase_abs; lra|]. split; [intros X; exfalso; revert X HC; unfold Rabs; repeat destruct Rcase_abs; lra|].
    clear - G U0. induction G as [|? ? ? ? N _ IH]; [apply Forall2_nil|]. apply Forall2_cons; [eapply near_le; [exact N|lra]|exact IH].
Qed.

(** The library of the exact functions is accurate. *)
Lemma rounded_near : (20 <= prec)%Z -> (20 <= emax)%Z -> forall x, Rabs x <= 4 -> near (rounded Hprec Hmax x) x (8 * u).
Proof.
  intros U20 E20 x X. destruct (u_small prec ltac:(assumption)) as (U0 & U1). destruct (eta_small prec emax ltac:(assumption)) as (E0 & E1). assert (OB := om_big emax ltac:(assumption)).
  set (fe := SpecFloat.fexp prec emax). assert (V : Valid_exp fe) by apply FLT_exp_valid, Hprec. destruct (rnd_error prec emax x) as (d & e & Hd & He & ER). fold fe in ER. change (round_mode mode_NE) with ZnearestE in ER.
  assert (D : Rabs (round radix2 fe ZnearestE x - x) <= 8 * u). { rewrite ER. assert (P : Rabs (x * d) <= 4 * u) by (rewrite Rabs_mult; apply Rmult_le_compat; auto using Rabs_pos). apply Rabs_le_inv in P, He. apply Rabs_le. lra. }
  assert (BN := binary_normalize_correct prec emax Hprec Hmax mode_NE (ZnearestE (scaled_mantissa radix2 fe x)) (cexp radix2 fe x) false).
  change (F2R {| Fnum := ZnearestE (scaled_mantissa radix2 fe x); Fexp := cexp radix2 fe x |}) with (round radix2 fe ZnearestE x) in BN.
  cbv zeta in BN. change (round_mode mode_NE) with ZnearestE in BN. fold fe in BN. rewrite (round_generic radix2 fe ZnearestE (round radix2 fe ZnearestE x)) in BN by (apply generic_format_round; [exact V|apply valid_rnd_N]).
  rewrite Rlt_bool_true in BN.
  - destruct BN as (B1 & B2 & _). split; [exact B2|]. unfold rounded. fold fe. rewrite B1. exact D.
  - apply Rabs_le_inv in D, X. apply Rle_lt_trans with 5; [apply Rabs_le; lra|lra].
Qed.
Lemma exact_accurate : (20 <= prec)%Z -> (20 <= emax)%Z -> accurate (exact_libm Hprec Hmax).
Proof.
  intros U20 E20. assert (P4 := PI_4). assert (P0 := PI_RGT_0). split; cbn.
  - apply rounded_near; auto. rewrite Rabs_pos_eq; lra.
  - intros x _ _. apply rounded_near; auto. destruct (SIN_bound (B2R x)). apply Rabs_le; lra.
  - intros x _ _. apply rounded_near; auto. destruct (COS_bound (B2R x)). apply Rabs_le; lra.
  - intros x _ _. apply rounded_near; auto. destruct (acos_bound (B2R x)). rewrite Rabs_pos_eq; lra.
Qed.
End FP2.

(** A case in double precision: from the direction (3,4,12)/13 to the z axis *)
Definition case_bound : double := (cst 1 - lit 1 100)%sc.
Definition case_axis : list double := pos_z3.
Lemma less : forall x y : double, o_lt x y = true -> is_finite x = true -> is_finite y = true -> B2R x < B2R y.
Proof. intros x y L Fx Fy. change (o_lt x y) with (Bltb x y) in L. rewrite (Flt 53 1024 x y Fx Fy) in L. revert L. case Rlt_bool_spec; [auto|discriminate]. Qed.
Lemma case_axis_unit : nearly_unit case_axis. Proof. exact (pos_z_unit 53 1024 ltac:(lia)). Qed.
Lemma scaled : forall k m n z o : double, is_finite k = true -> is_finite m = true /\ B2R m = 1000 -> is_finite n = true /\ B2R n = 994 -> is_finite z = true /\ B2R z = 0 -> is_finite o = true /\ B2R o = 1 ->
  o_lt (o_mul m k) n && (o_lt k o && o_lt z k) = true -> B2R k <= 995 / 1000.
Proof.
  intros k m n z o Fc (F2 & V2) (F1 & V1) (F3 & V3) (F4 & V4) L. apply andb_true_iff in L as (L1 & L). apply andb_true_iff in L as (L2 & L3).
  apply less in L2; [|assumption|assumption]. apply less in L3; [|assumption|assumption]. rewrite V4 in L2. rewrite V3 in L3. destruct (u_small 53 ltac:(lia)) as (U0 & U1). destruct (eta_small 53 1024 ltac:(lia)) as (E0 & E1).
  assert (OB : 2000 <= bpow radix2 1024) by (apply Rle_trans with (bpow radix2 20); [cbn; lra|apply bpow_le; lia]).
  destruct (mult_ok 53 1024 m k F2 Fc) as (Fm & d & e & Hd & He & EM). { rewrite V2, Rabs_pos_eq by lra. nra. }
  apply less in L1; [|exact Fm|exact F1]. match type of EM with B2R ?x = _ => change (B2R x < B2R n) in L1 end. rewrite V1, EM, V2 in L1. apply Rabs_le_inv in Hd, He. nra.
Qed.
Lemma case_bool : o_lt (o_mul (cst 1000) case_bound) (cst 994) && (o_lt case_bound (cst 1) && o_lt (cst 0) case_bound) = true.
Proof. vm_cast_no_check (eq_refl true). Qed.
Lemma case_fin : is_finite case_bound = true.
Proof. vm_cast_no_check (eq_refl true). Qed.
Lemma case_const : is_finite case_bound = true /\ B2R case_bound <= 995 / 1000.
Proof.
  split; [exact case_fin|]. refine (scaled _ _ _ _ _ case_fin _ _ _ _ case_bool); apply cst_double; cbn; lia.
Qed.
Definition case_x : double := v_dot (v_normalize v345) case_axis.
Lemma case_near : near case_x (rdot (values (v_normalize v345 : list double)) (values case_axis)) (11 * unit_roundoff 53).
Proof. unfold case_x. apply (den_near 53 1024 ltac:(lia) ltac:(lia)); [exact dir_unit|exact case_axis_unit]. Qed.
Lemma case_small : o_lt case_x case_bound && o_lt (cst 0) case_x = true.
Proof. vm_cast_no_check (eq_refl true). Qed.
Lemma between : forall (x k z : double) c, near x c (11 * unit_roundoff 53) -> is_finite k = true /\ B2R k <= 995 / 1000 -> is_finite z = true /\ B2R z = 0 -> o_lt x k && o_lt z x = true ->
  Rabs c < 1 - B2R (almost_zero : double) - 12 * unit_roundoff 53.
Proof.
  intros x k z c (FD & D) (Fk & Vk) (F0 & V0) S. apply andb_true_iff in S as (S1 & S2). apply less in S1; [|exact FD|exact Fk]. apply less in S2; [|exact F0|exact FD]. rewrite V0 in S2.
  destruct (u_small 53 ltac:(lia)) as (U0 & U1). assert (Va : Rabs (B2R (almost_zero : double) - / 1000) <= / 100000) by exact (proj2 (az_near 53 1024 ltac:(lia) ltac:(lia))). apply Rabs_le_inv in Va, D. apply Rabs_def1; lra.
Qed.
Lemma case_ft : nearly_unit (v_normalize v345 : list double) /\ nearly_unit case_axis /\ accurate (@exact_libm 53 1024 _ _)
  /\ Rabs (rdot (values (v_normalize v345 : list double)) (values case_axis)) < 1 - B2R (almost_zero : double) - 12 * unit_roundoff 53.
Proof.
  split; [exact dir_unit|]. split; [exact case_axis_unit|]. split; [exact (exact_accurate 53 1024 ltac:(lia) ltac:(lia))|].
  refine (between _ _ _ _ case_near case_const _ case_small). apply cst_double. cbn. lia.
Qed.
