(** The quaternion that rotates one machine vector onto another (C106). *)
From Coq Require Import ZArith Reals List Lia Lra Bool Psatz.
From Flocq Require Import Core BinarySingleNaN.
From Verif Require Import Ops M_scalar M_vec M_quat Inst_F S_vec S_rnd S_hit P_ord P_ieee P_vec P_fp P_fp2 P_fp3 P_fp4 P_fp5 P_hit P_hit2 P_hit3.
Import ListNotations.
Local Open Scope R_scope.

Section FP.
Variables prec emax : Z.
Context {Hprec : Prec_gt_0 prec} {Hmax : Prec_lt_emax prec emax}.
Notation fl := (binary_float prec emax).
Notation u := (unit_roundoff prec).
Notation eta := (underflow_error prec emax).
Notation Om := (bpow radix2 emax).
Hypothesis U20 : (20 <= prec)%Z.
Hypothesis E20 : (20 <= emax)%Z.

Lemma om_big : 1000000 <= Om.
Proof. apply Rle_trans with (bpow radix2 20); [cbn; lra|apply bpow_le; lia]. Qed.
Lemma few3 : few prec 3.
Proof. destruct (u_small prec ltac:(assumption)) as (U0 & U1). unfold few. simpl. lra. Qed.
Lemma moderate_of : forall a : list R, / 50 <= rnorm a <= 256 -> moderate emax a.
Proof.
  intros a H. unfold moderate. split.
  - apply Rle_trans with (bpow radix2 (-6)); [apply bpow_le; assert (10 <= emax / 2)%Z by (apply Z.div_le_lower_bound; lia); lia|]. cbn. lra.
  - apply Rle_trans with (bpow radix2 8); [cbn; lra|]. apply bpow_le. assert (10 <= emax / 2)%Z by (apply Z.div_le_lower_bound; lia). lia.
Qed.
Lemma unit_test : forall v : list fl, nearly_unit v -> v_is_unit v almost_zero = true.
Proof.
  intros v (L & F & H). destruct (u_small prec ltac:(assumption)) as (U0 & U1). destruct (az_near prec emax ltac:(assumption) ltac:(assumption)) as (Fa & Va). apply Rabs_le_inv in Va. destruct (F_cst1 prec emax) as (F1 & V1).
  apply Rabs_le_inv in H.
  assert (LN : near (v_length v) (rnorm (values v)) (5 * u)).
  { assert (N := length_ok prec emax v F). rewrite L in N. specialize (N few3 (moderate_of (values v) ltac:(lra))). eapply near_le; [exact N|]. simpl. nra. }
  destruct LN as (FL & HL). apply Rabs_le_inv in HL. unfold v_is_unit. apply (is_equal_near prec emax); auto. rewrite V1.
  assert (A : Rabs (B2R (v_length v) - 1) <= 21 * u) by (apply Rabs_le; lra). nra.
Qed.
Lemma normal_unit : forall v : list fl, length v = 3%nat -> all_finite v -> / 50 <= rnorm (values v) <= 256 -> nearly_unit (v_normalize v)
  /\ Forall2 (fun x y => Rabs (B2R y - B2R x / rnorm (values v)) <= 9 * u * (Rabs (B2R x) / rnorm (values v)) + eta) v (v_normalize v).
Proof.
  intros v L F H. destruct (u_small prec ltac:(assumption)) as (U0 & U1). assert (M := moderate_of _ H). assert (FW := few3). rewrite <- L in FW. assert (C := normalize_ok prec emax v F FW M). assert (N := normalize_norm prec emax v F FW M).
  rewrite L in C, N. split.
  - split; [unfold v_normalize, v_div_s; now rewrite map_length|]. split.
    + clear - C. revert C. set (w := v_normalize v). clearbody w. generalize (rnorm (values v)). intros r C. induction C as [|x y a b Hn _ IH]; [apply Forall_nil|]. apply Forall_cons; [apply Hn|exact IH].
    + eapply Rle_trans; [exact N|]. simpl. lra.
  - revert C. set (w := v_normalize v). clearbody w. clear N. destruct H as (H & _). set (r := rnorm (values v)) in *. assert (R0 : 0 < r) by lra. clearbody r. clear - U0 R0.
    intros C. induction C as [|x y a b (_ & Hn) _ IH]; [apply Forall2_nil|]. apply Forall2_cons; [|exact IH]. eapply Rle_trans; [exact Hn|]. apply Rplus_le_compat_r, Rmult_le_compat_r; [|simpl; lra].
    apply Rmult_le_pos; [apply Rabs_pos|left; now apply Rinv_0_lt_compat].
Qed.
(** The cross product of vectors with components of size at most A *)
Lemma cross3_near : forall (a b : list fl) A, length a = 3%nat -> length b = 3%nat -> all_finite a -> all_finite b -> Forall (fun x => Rabs x <= A) (values a) -> Forall (fun x => Rabs x <= A) (values b) ->
  1 <= A -> 3 * (A * A) <= Om -> Forall2 (fun x y => near x y (5 * u * (A * A)) /\ Rabs y <= 2 * (A * A)) (v_cross a b) (rcross (values a) (values b)).
Proof.
  intros a b A La Lb Fa Fb Ba Bb A1 HO. destruct (u_small prec ltac:(assumption)) as (U0 & U1). destruct (eta_small prec emax ltac:(assumption)) as (E0 & E1).
  assert (AA : 1 <= A * A) by nra. assert (UA : u <= u * (A * A)) by nra. assert (UA2 : u * (A * A) <= A * A / 1000000) by nra. assert (UA3 : u * (u * (A * A)) <= u * (A * A) / 1000000) by nra. assert (OB := om_big).
  assert (ST : forall x y z w : fl, is_finite x = true -> is_finite y = true -> is_finite z = true -> is_finite w = true -> Rabs (B2R x) <= A -> Rabs (B2R y) <= A -> Rabs (B2R z) <= A -> Rabs (B2R w) <= A ->
    near (o_sub (o_mul x y) (o_mul z w)) (B2R x * B2R y - B2R z * B2R w) (5 * u * (A * A)) /\ Rabs (B2R x * B2R y - B2R z * B2R w) <= 2 * (A * A)).
  { intros x y z w Fx Fy Fz Fw Bx By Bz Bw.
    assert (M : forall s t, Rabs s <= A -> Rabs t <= A -> Rabs (s * t) <= A * A) by (intros s t S T; rewrite Rabs_mult; apply Rmult_le_compat; auto using Rabs_pos).
    assert (B1 := M _ _ Bx By). assert (B2 := M _ _ Bz Bw). assert (BB : Rabs (B2R x * B2R y - B2R z * B2R w) <= 2 * (A * A)) by (apply Rabs_le_inv in B1, B2; apply Rabs_le; lra).
    assert (OV : (A + 0) * (A + 0) * (1 + u) + eta < Om) by (rewrite !Rplus_0_r; nra).
    assert (N1 := near_mul prec emax x y _ _ 0 0 A A (near_exact prec emax x Fx) (near_exact prec emax y Fy) Bx By OV).
    assert (N2 := near_mul prec emax z w _ _ 0 0 A A (near_exact prec emax z Fz) (near_exact prec emax w Fw) Bz Bw OV).
    split; [|exact BB]. assert (N3 := near_sub prec emax _ _ _ _ _ _ _ N1 N2 BB). eapply near_le; [apply N3; rewrite !Rplus_0_r; nra|]. rewrite !Rplus_0_r. nra. }
  destruct a as [|a0 [|a1 [|a2 [|]]]]; try discriminate. destruct b as [|b0 [|b1 [|b2 [|]]]]; try discriminate.
  inversion Fa as [|? ? G0 Fx']; subst. inversion Fx' as [|? ? G1 Fx'']; subst. inversion Fx'' as [|? ? G2 _]; subst.
  inversion Fb as [|? ? K0 Fn']; subst. inversion Fn' as [|? ? K1 Fn'']; subst. inversion Fn'' as [|? ? K2 _]; subst.
  unfold values in *. cbn [map] in *.
  inversion Ba as [|? ? H0 Bo1]; subst. inversion Bo1 as [|? ? H1 Bo2]; subst. inversion Bo2 as [|? ? H2 _]; subst.
  inversion Bb as [|? ? N0 Bn1]; subst. inversion Bn1 as [|? ? N1 Bn2]; subst. inversion Bn2 as [|? ? N2 _]; subst.
  apply Forall2_cons; [now apply ST|]. apply Forall2_cons; [now apply ST|]. apply Forall2_cons; [now apply ST|]. apply Forall2_nil.
Qed.

Lemma square_near : forall x X e, Rabs (x - X) <= e -> Rabs X <= 21 / 10 -> e <= / 1000 -> Rabs (x * x - X * X) <= 43 / 10 * e.
Proof.
  intros x X e H B E. replace (x * x - X * X) with ((x - X) * (x + X)) by ring. rewrite Rabs_mult. rewrite Rmult_comm. apply Rmult_le_compat; auto using Rabs_pos.
  apply Rabs_le_inv in H, B. apply Rabs_le. lra.
Qed.
Lemma axis_ok : forall f w : list fl, nearly_unit f -> nearly_unit w -> / 1250 <= rdot (rcross (values f) (values w)) (rcross (values f) (values w)) ->
  let a := v_normalize (v_cross f w) in nearly_unit a /\ Rabs (rdot (values a) (values f)) <= 800 * u /\ Rabs (rdot (values a) (values w)) <= 800 * u.
Proof.
  intros f w Hf Hw HX a. destruct (u_small prec ltac:(assumption)) as (U0 & U1). destruct (eta_small prec emax ltac:(assumption)) as (E0 & E1). assert (OB := om_big).
  destruct (unit_facts prec emax ltac:(assumption) f Hf) as (Bf & _). destruct (unit_facts prec emax ltac:(assumption) w Hw) as (Bw & _).
  destruct Hf as (Lf & Ff & _), Hw as (Lw & Fw & _).
  assert (C := cross3_near f w (1001 / 1000) Lf Lw Ff Fw Bf Bw ltac:(lra) ltac:(lra)). set (x := v_cross f w) in *. assert (Lx : length x = 3%nat) by reflexivity. clearbody x.
  destruct f as [|f0 [|f1 [|f2 [|]]]]; try discriminate. destruct w as [|w0 [|w1 [|w2 [|]]]]; try discriminate. destruct x as [|x0 [|x1 [|x2 [|]]]]; try discriminate.
  assert (Bf' := Bf). assert (Bw' := Bw). unfold values in Bf', Bw', C, HX. cbn [map rcross] in Bf', Bw', C, HX.
  inversion Bf' as [|? ? P0 Bo1]; subst. inversion Bo1 as [|? ? P1 Bo2]; subst. inversion Bo2 as [|? ? P2 _]; subst.
  inversion Bw' as [|? ? N0 Bn1]; subst. inversion Bn1 as [|? ? N1 Bn2]; subst. inversion Bn2 as [|? ? N2 _]; subst.
  inversion C as [|? ? ? ? ((F0 & D0) & S0) C1]; subst. inversion C1 as [|? ? ? ? ((F1 & D1) & S1) C2]; subst. inversion C2 as [|? ? ? ? ((F2 & D2) & S2) _]; subst. clear C C1 C2 Bo1 Bo2 Bn1 Bn2.
  set (X0 := B2R f1 * B2R w2 - B2R f2 * B2R w1) in *. set (X1 := B2R f2 * B2R w0 - B2R f0 * B2R w2) in *. set (X2 := B2R f0 * B2R w1 - B2R f1 * B2R w0) in *.
  assert (PF : X0 * B2R f0 + X1 * B2R f1 + X2 * B2R f2 = 0) by (unfold X0, X1, X2; ring). assert (PW : X0 * B2R w0 + X1 * B2R w1 + X2 * B2R w2 = 0) by (unfold X0, X1, X2; ring).
  clearbody X0 X1 X2. set (e := 51 / 10 * u). assert (EE : 5 * u * (1001 / 1000 * (1001 / 1000)) <= e) by (unfold e; lra). assert (E3 : e <= / 1000) by (unfold e; lra).
  assert (T2 : 2 * (1001 / 1000 * (1001 / 1000)) <= 21 / 10) by lra.
  assert (Q0 := square_near _ _ e (Rle_trans _ _ _ D0 EE) (Rle_trans _ _ _ S0 T2) E3). assert (Q1 := square_near _ _ e (Rle_trans _ _ _ D1 EE) (Rle_trans _ _ _ S1 T2) E3). assert (Q2 := square_near _ _ e (Rle_trans _ _ _ D2 EE) (Rle_trans _ _ _ S2 T2) E3).
  cbn [rdot] in HX. 
  assert (SQ : forall Y, Rabs Y <= 2 * (1001 / 1000 * (1001 / 1000)) -> Y * Y <= 5) by (intros Y HY; apply Rabs_le_inv in HY; nra).
  assert (Z0 := SQ _ S0). assert (Z1 := SQ _ S1). assert (Z2 := SQ _ S2).
  assert (SX : / 2500 <= rdot (values [x0; x1; x2]) (values [x0; x1; x2]) <= 16). { unfold values. cbn [map rdot]. apply Rabs_le_inv in Q0, Q1, Q2. unfold e in *. lra. }
  set (r := rnorm (values [x0; x1; x2])).
  assert (RR : / 50 <= r <= 256).
  { unfold r, rnorm. split.
    - replace (/ 50) with (sqrt (/ 2500)). + apply sqrt_le_1_alt. lra. + replace (/ 2500) with (/ 50 * / 50) by lra. apply sqrt_square. lra.
    - apply Rle_trans with (sqrt 16); [apply sqrt_le_1_alt; lra|]. replace 16 with (4 * 4) by ring. rewrite sqrt_square; lra. }
  assert (FX : all_finite [x0; x1; x2]) by (repeat (apply Forall_cons; [assumption|]); apply Forall_nil).
  destruct (normal_unit [x0; x1; x2] eq_refl FX RR) as (NU & NC). fold a in NU, NC. split; [exact NU|]. fold r in NC. 
  assert (XR : forall z, In z [x0; x1; x2] -> Rabs (B2R z) / r <= 1).
  { intros z Hz. apply Rmult_le_reg_r with r; [lra|]. unfold Rdiv. rewrite Rmult_assoc, Rinv_l by lra. rewrite Rmult_1_r, Rmult_1_l. unfold r, rnorm. apply Rsqr_incr_0_var; [|apply sqrt_pos]. rewrite Rsqr_sqrt by lra. rewrite <- Rsqr_abs. unfold Rsqr, values. cbn [map rdot].
    destruct Hz as [<-|[<-|[<-|[]]]]; nra. }
  assert (X00 := XR x0 (or_introl eq_refl)). assert (X11 := XR x1 (or_intror (or_introl eq_refl))). assert (X22 := XR x2 (or_intror (or_intror (or_introl eq_refl)))).
  clearbody a r. destruct NU as (La & _). destruct a as [|a0 [|a1 [|a2 [|]]]]; try discriminate.
  inversion NC as [|? ? ? ? A0 NC1]; subst. inversion NC1 as [|? ? ? ? A1 NC2]; subst. inversion NC2 as [|? ? ? ? A2 _]; subst. clear NC NC1 NC2.
  assert (G : forall y z : R, z <= 1 -> Rabs y <= 9 * u * z + eta -> Rabs y <= 91 / 10 * u) by (intros y z Z Y; nra).
  apply (G _ _ X00) in A0. apply (G _ _ X11) in A1. apply (G _ _ X22) in A2.
  assert (IR : 0 < / r <= 50). { split; [apply Rinv_0_lt_compat; lra|]. rewrite <- (Rinv_inv 50). apply Rinv_le; lra. }
  assert (K : forall g0 g1 g2, Rabs g0 <= 1001 / 1000 -> Rabs g1 <= 1001 / 1000 -> Rabs g2 <= 1001 / 1000 -> X0 * g0 + X1 * g1 + X2 * g2 = 0 -> Rabs (rdot [B2R a0; B2R a1; B2R a2] [g0; g1; g2]) <= 800 * u).
  { intros g0 g1 g2 G0 G1 G2 PG. cbn [rdot].
    replace (B2R a0 * g0 + (B2R a1 * g1 + (B2R a2 * g2 + 0))) with
      (((B2R a0 - B2R x0 / r) * g0 + (B2R a1 - B2R x1 / r) * g1 + (B2R a2 - B2R x2 / r) * g2) + / r * ((B2R x0 - X0) * g0 + (B2R x1 - X1) * g1 + (B2R x2 - X2) * g2)).
    2:{ transitivity (B2R a0 * g0 + B2R a1 * g1 + B2R a2 * g2 - / r * (X0 * g0 + X1 * g1 + X2 * g2)); [field; lra|rewrite PG; ring]. }
    assert (M : forall s k z, Rabs s <= k -> Rabs z <= 1001 / 1000 -> Rabs (s * z) <= k * (1001 / 1000)) by (intros s k z Hs Hz; rewrite Rabs_mult; apply Rmult_le_compat; auto using Rabs_pos).
    assert (M0 := M _ _ _ A0 G0). assert (M1 := M _ _ _ A1 G1). assert (M2 := M _ _ _ A2 G2).
    assert (W0 := M _ _ _ (Rle_trans _ _ _ D0 EE) G0). assert (W1 := M _ _ _ (Rle_trans _ _ _ D1 EE) G1). assert (W2 := M _ _ _ (Rle_trans _ _ _ D2 EE) G2).
    set (sum := (B2R x0 - X0) * g0 + (B2R x1 - X1) * g1 + (B2R x2 - X2) * g2). assert (HS : Rabs sum <= 154 / 10 * u) by (unfold sum, e in *; apply Rabs_le_inv in W0, W1, W2; apply Rabs_le; lra).
    assert (HR : Rabs (/ r * sum) <= 770 * u). { rewrite Rabs_mult, (Rabs_pos_eq (/ r)) by lra. assert (P := Rabs_pos sum). nra. }
    apply Rabs_le_inv in M0, M1, M2, HR. apply Rabs_le. lra. }
  unfold values. cbn [map]. split; apply K; assumption.
Qed.
End FP.
