(** The accuracy of the quaternion that rotates one machine vector onto another (C106). *)
From Coq Require Import ZArith Reals List Lia Lra Bool Psatz.
From Flocq Require Import Core BinarySingleNaN.
From Verif Require Import Ops M_scalar M_vec M_quat Inst_F S_vec S_rnd S_hit S_quat S_ft P_ord P_ieee P_vec P_fp P_fp2 P_fp3 P_fp4 P_fp5 P_hit P_hit2 P_hit3 P_ft P_ft2 P_ft3.
Import ListNotations.
Local Open Scope R_scope.

(** Sine and cosine *)
Lemma sin_le : forall x, Rabs (sin x) <= Rabs x.
Proof.
  assert (P : forall x, 0 <= x -> Rabs (sin x) <= x).
  { intros x H. destruct (Rle_dec x PI) as [L|L].
    - rewrite Rabs_pos_eq by (apply sin_ge_0; lra). destruct (Req_dec x 0) as [->|N]; [rewrite sin_0; lra|]. left. apply sin_lt_x. lra.
    - assert (Q := PI2_1). assert (R := SIN_bound x). apply Rle_trans with 1; [apply Rabs_le; lra|]. unfold PI in *. lra. }
  intros x. destruct (Rle_dec 0 x) as [L|L].
  - rewrite (Rabs_pos_eq x) by exact L. now apply P.
  - rewrite (Rabs_left x) by lra. rewrite <- (Ropp_involutive x) at 1. rewrite sin_neg, Rabs_Ropp. apply P. lra.
Qed.
Lemma sin_lip : forall a b, Rabs (sin a - sin b) <= Rabs (a - b).
Proof.
  intros a b. rewrite form4. rewrite !Rabs_mult. rewrite (Rabs_pos_eq 2) by lra. assert (S := sin_le ((a - b) / 2)). replace (Rabs ((a - b) / 2)) with (Rabs (a - b) / 2) in S by (unfold Rdiv; rewrite Rabs_mult, (Rabs_pos_eq (/ 2)); lra).
  assert (C : Rabs (cos ((a + b) / 2)) <= 1) by (apply Rabs_le; apply COS_bound). assert (P := Rabs_pos (cos ((a + b) / 2))). assert (P' := Rabs_pos (sin ((a - b) / 2))). nra.
Qed.
Lemma cos_lip : forall a b, Rabs (cos a - cos b) <= Rabs (a - b).
Proof.
  intros a b. rewrite form2. rewrite !Rabs_mult. rewrite Rabs_left by lra. assert (S := sin_le ((a - b) / 2)). replace (Rabs ((a - b) / 2)) with (Rabs (a - b) / 2) in S by (unfold Rdiv; rewrite Rabs_mult, (Rabs_pos_eq (/ 2)); lra).
  assert (C : Rabs (sin ((a + b) / 2)) <= 1) by (apply Rabs_le; apply SIN_bound). assert (P := Rabs_pos (sin ((a + b) / 2))). assert (P' := Rabs_pos (sin ((a - b) / 2))). nra.
Qed.

(** A rotation by an exact quaternion about an axis perpendicular to the vector *)
Lemma exact_rotation : forall w f th, length w = 3%nat -> length f = 3%nat -> rdot w w = 1 -> rdot w f = 0 ->
  rq_rotate (Q (cos (th / 2)) (rscale (sin (th / 2)) w)) f = radd (rscale (cos th) f) (rscale (sin th) (rcross w f)).
Proof.
  intros w f th Lw Lf W1 WF. assert (CT : cos th = cos (th / 2) * cos (th / 2) - sin (th / 2) * sin (th / 2)) by (replace th with (2 * (th / 2)) at 1 by field; apply cos_2a).
  assert (ST : sin th = 2 * sin (th / 2) * cos (th / 2)) by (replace th with (2 * (th / 2)) at 1 by field; apply sin_2a). rewrite CT, ST. set (c := cos (th / 2)). set (s := sin (th / 2)). clearbody c s. clear CT ST.
  destruct w as [|x [|y [|z [|]]]]; try discriminate. destruct f as [|fx [|fy [|fz [|]]]]; try discriminate. unfold radd, rscale. cbn [map]. rewrite rotate_poly. cbn [rcross map zip rdot] in *.
  f_equal; [|f_equal; [|f_equal]].
  - transitivity ((c * c - s * s) * fx + 2 * s * c * (y * fz - z * fy) + s * s * (2 * x * (x * fx + (y * fy + (z * fz + 0))) + fx * (1 - (x * x + (y * y + (z * z + 0)))))); [ring|rewrite W1, WF; ring].
  - transitivity ((c * c - s * s) * fy + 2 * s * c * (z * fx - x * fz) + s * s * (2 * y * (x * fx + (y * fy + (z * fz + 0))) + fy * (1 - (x * x + (y * y + (z * z + 0)))))); [ring|rewrite W1, WF; ring].
  - transitivity ((c * c - s * s) * fz + 2 * s * c * (x * fy - y * fx) + s * s * (2 * z * (x * fx + (y * fy + (z * fz + 0))) + fz * (1 - (x * x + (y * y + (z * z + 0)))))); [ring|rewrite W1, WF; ring].
Qed.
Lemma unit_size : forall w, rdot w w = 1 -> Forall (fun x => Rabs x <= 1) w.
Proof.
  intros w H. apply Forall_forall. intros y Hy. assert (Y : y * y <= 1). { rewrite <- H. clear - Hy. induction w as [|z l IH]; [destruct Hy|]. cbn [rdot]. assert (P := rdot_nonneg l). destruct Hy as [<-|Hy]; [nra|]. specialize (IH Hy). nra. }
  apply Rabs_le. nra.
Qed.

Section FP.
Variables prec emax : Z.
Context {Hprec : Prec_gt_0 prec} {Hmax : Prec_lt_emax prec emax}.
Notation fl := (binary_float prec emax).
Context {lm : libm fl}.
Notation u := (unit_roundoff prec).
Notation eta := (underflow_error prec emax).
Notation Om := (bpow radix2 emax).
Notation az := (B2R (almost_zero : fl)).
Hypothesis U20 : (20 <= prec)%Z.
Hypothesis E20 : (20 <= emax)%Z.

(** The direction of the axis *)
Lemma axis_close : forall f w : list fl, nearly_unit f -> nearly_unit w -> let X := rcross (values f) (values w) in / 1250 <= rdot X X ->
  Forall2 (fun x y => Rabs (B2R x - y) <= 1030 * u) (v_normalize (v_cross f w)) (rscale (/ rnorm X) X).
Proof.
  intros f w Hf Hw X HX. set (a := v_normalize (v_cross f w)). destruct (u_small prec ltac:(assumption)) as (U0 & U1). destruct (eta_small prec emax ltac:(assumption)) as (E0 & E1). assert (OB := om_big emax ltac:(assumption)).
  destruct (unit_facts prec emax ltac:(assumption) f Hf) as (Bf & _). destruct (unit_facts prec emax ltac:(assumption) w Hw) as (Bw & _).
  destruct Hf as (Lf & Ff & _), Hw as (Lw & Fw & _).
  assert (C := cross3_near prec emax ltac:(assumption) ltac:(assumption) f w (1001 / 1000) Lf Lw Ff Fw Bf Bw ltac:(lra) ltac:(lra)). fold X in C. set (x := v_cross f w) in *. assert (Lx : length x = 3%nat) by reflexivity. clearbody x.
  assert (LX : length X = 3%nat) by (unfold X; destruct f as [|f0 [|f1 [|f2 [|]]]]; try discriminate; destruct w as [|w0 [|w1 [|w2 [|]]]]; try discriminate; reflexivity). clearbody X.
  assert (CL : Forall2 (fun p q => Rabs (q - p) <= 0 * Rabs p + 51 / 10 * u) X (values x)).
  { clear - C U0. unfold values. induction C as [|? ? ? ? ((_ & N) & _) _ IH]; [apply Forall2_nil|]. cbn [map]. apply Forall2_cons; [lra|exact IH]. }
  assert (NCL := norm_close X (values x) 0 (51 / 10 * u) ltac:(lra) ltac:(lra) CL). rewrite LX in NCL. replace (INR 3) with 3 in NCL by (simpl; ring).
  assert (FX : all_finite x) by (clear - C; induction C as [|? ? ? ? ((N & _) & _) _ IH]; [apply Forall_nil|]; apply Forall_cons; [exact N|exact IH]).
  assert (BX : Forall (fun y => Rabs y <= 201 / 100) X) by (clear - C; induction C as [|? ? ? ? (_ & N) _ IH]; [apply Forall_nil|]; apply Forall_cons; [lra|exact IH]).
  set (R := rnorm X) in *. set (r := rnorm (values x)) in *. apply Rabs_le_inv in NCL.
  assert (RL : / 36 <= R). { unfold R, rnorm. apply Rle_trans with (sqrt (/ 36 * / 36)); [rewrite sqrt_square; lra|]. apply sqrt_le_1_alt. lra. }
  assert (RU : R <= 4). { unfold R, rnorm. clear - BX LX. destruct X as [|X0 [|X1 [|X2 [|]]]]; try discriminate. inversion BX as [|? ? B0 B']; subst. inversion B' as [|? ? B1 B'']; subst. inversion B'' as [|? ? B2 _]; subst.
    apply Rle_trans with (sqrt (4 * 4)); [|rewrite sqrt_square; lra]. apply sqrt_le_1_alt. cbn [rdot]. apply Rabs_le_inv in B0, B1, B2. nra. }
  destruct (normal_unit prec emax ltac:(assumption) ltac:(assumption) x Lx FX) as (_ & NC). { fold r. split; lra. } fold a in NC. fold r in NC.
  assert (XS : forall y, In y X -> Rabs y <= R).
  { intros y Hy. unfold R, rnorm. apply Rsqr_incr_0_var; [|apply sqrt_pos]. rewrite Rsqr_sqrt by apply rdot_nonneg. rewrite <- Rsqr_abs. unfold Rsqr. clear - Hy. induction X as [|z l IH]; [destruct Hy|]. cbn [rdot]. assert (P := rdot_nonneg l). destruct Hy as [<-|Hy]; [nra|]. specialize (IH Hy). nra. }
  assert (IR : 0 < / R <= 36). { split; [apply Rinv_0_lt_compat; lra|]. rewrite <- (Rinv_inv 36). apply Rinv_le; lra. }
  assert (Ir : 0 < / r <= 37). { split; [apply Rinv_0_lt_compat; lra|]. rewrite <- (Rinv_inv 37). apply Rinv_le; lra. }
  assert (ST : forall ai xi Xi, Rabs (ai - xi / r) <= 9 * u * (Rabs xi / r) + eta -> Rabs (xi - Xi) <= 51 / 10 * u -> Rabs Xi <= R -> Rabs (ai - / R * Xi) <= 1030 * u).
  { intros ai xi Xi H1 H2 H3.
    assert (B1 : Rabs xi / r <= 2).
    { apply Rmult_le_reg_r with r; [lra|]. unfold Rdiv. rewrite Rmult_assoc, Rinv_l by lra. rewrite Rmult_1_r. apply Rabs_le_inv in H2, H3. apply Rabs_le. lra. }
    assert (H4 : Rabs (ai - xi / r) <= 19 * u) by nra.
    replace (ai - / R * Xi) with ((ai - xi / r) + (/ r * (xi - Xi) + / r * ((R - r) * (/ R * Xi)))) by (field; lra).
    assert (H5 : Rabs (/ R * Xi) <= 1) by (rewrite Rabs_mult, (Rabs_pos_eq (/ R)) by lra; apply Rle_trans with (/ R * R); [apply Rmult_le_compat_l; lra|rewrite Rinv_l; lra]).
    assert (H6 : Rabs ((R - r) * (/ R * Xi)) <= 153 / 10 * u * 1) by (rewrite Rabs_mult; apply Rmult_le_compat; auto using Rabs_pos; apply Rabs_le; lra).
    assert (H7 : Rabs (/ r * (xi - Xi)) <= 37 * (51 / 10 * u)) by (rewrite Rabs_mult, (Rabs_pos_eq (/ r)) by lra; apply Rmult_le_compat; auto using Rabs_pos; lra).
    assert (H8 : Rabs (/ r * ((R - r) * (/ R * Xi))) <= 37 * (153 / 10 * u * 1)) by (rewrite Rabs_mult, (Rabs_pos_eq (/ r)) by lra; apply Rmult_le_compat; auto using Rabs_pos; lra).
    apply Rabs_le_inv in H4, H7, H8. apply Rabs_le. lra. }
  clearbody a r R. clear - NC CL XS ST LX Lx. unfold rscale.
  destruct x as [|x0 [|x1 [|x2 [|]]]]; try discriminate. destruct X as [|X0 [|X1 [|X2 [|]]]]; try discriminate. unfold values in CL. cbn [map] in *.
  inversion CL as [|? ? ? ? D0 CL1]; subst. inversion CL1 as [|? ? ? ? D1 CL2]; subst. inversion CL2 as [|? ? ? ? D2 _]; subst.
  inversion NC as [|? ? ? ? A0 NC1]; subst. inversion NC1 as [|? ? ? ? A1 NC2]; subst. inversion NC2 as [|? ? ? ? A2 NC3]; subst. inversion NC3; subst.
  apply Forall2_cons; [apply (ST _ _ _ A0); [lra|apply XS; cbn; auto]|]. apply Forall2_cons; [apply (ST _ _ _ A1); [lra|apply XS; cbn; auto]|]. apply Forall2_cons; [apply (ST _ _ _ A2); [lra|apply XS; cbn; auto]|]. apply Forall2_nil.
Qed.

Hypothesis ACC : accurate lm.
Lemma half_angle : forall (angle : fl) th, near angle th (40 * u) -> Rabs th <= 4 -> near (f_cos (o_div angle (cst 2))) (cos (th / 2)) (31 * u) /\ near (f_sin (o_div angle (cst 2))) (sin (th / 2)) (31 * u).
Proof.
  intros angle th (F & H) B. destruct (u_small prec ltac:(assumption)) as (U0 & U1). destruct (eta_small prec emax ltac:(assumption)) as (E0 & E1). assert (OB := om_big emax ltac:(assumption)).
  assert (P20 : (2 ^ 20 <= 2 ^ prec)%Z) by (apply Z.pow_le_mono_r; lia). destruct (F_cst prec emax 2 ltac:(lia)) as (F2 & V2).
  assert (BA : Rabs (B2R angle) <= 41 / 10) by (apply Rabs_le_inv in H, B; apply Rabs_le; lra).
  assert (BA2 : Rabs (B2R angle / 2) <= 205 / 100) by (apply Rabs_le_inv in BA; apply Rabs_le; lra).
  destruct (div_ok prec emax angle (@cst _ (Fops prec emax _ _) 2) F) as (FD & d & e & Hd & He & ED).
  { rewrite V2. lra. } { rewrite V2. nra. }
  rewrite V2 in ED. match type of ED with B2R ?x = _ => set (h := x) in * end. change (o_div angle (cst 2)) with h.
  assert (HH : Rabs (B2R h - th / 2) <= 23 * u).
  { rewrite ED. assert (X : Rabs (B2R angle / 2 * d) <= 205 / 100 * u) by (rewrite Rabs_mult; apply Rmult_le_compat; auto using Rabs_pos). apply Rabs_le_inv in X, H, He. apply Rabs_le. lra. }
  assert (H7 : Rabs (B2R h) <= 7) by (apply Rabs_le_inv in HH, B; apply Rabs_le; lra). change (is_finite h = true) in FD.
  destruct (acc_cos lm ACC h FD H7) as (FC & HC). destruct (acc_sin lm ACC h FD H7) as (FS & HS). assert (LC := cos_lip (B2R h) (th / 2)). assert (LS := sin_lip (B2R h) (th / 2)).
  split; (split; [assumption|]).
  - replace (B2R (f_cos h) - cos (th / 2)) with ((B2R (f_cos h) - cos (B2R h)) + (cos (B2R h) - cos (th / 2))) by ring. eapply Rle_trans; [apply Rabs_triang|]. lra.
  - replace (B2R (f_sin h) - sin (th / 2)) with ((B2R (f_sin h) - sin (B2R h)) + (sin (B2R h) - sin (th / 2))) by ring. eapply Rle_trans; [apply Rabs_triang|]. lra.
Qed.
(** The machine quaternion is close to the exact one, and so are its rotations. *)
Lemma spin_close : forall (a : list fl) (w : list R) (angle : fl) th, length a = 3%nat -> all_finite a -> Forall2 (fun x y => Rabs (B2R x - y) <= 1030 * u) a w -> rdot w w = 1 -> near angle th (40 * u) -> Rabs th <= 4 ->
  let q := Q (f_cos (o_div angle (cst 2))) (v_scale a (f_sin (o_div angle (cst 2)))) in
  quat_finite q /\ qsize (quat_values q) (101 / 100) /\ Rabs (rq_norm2 (quat_values q) - 1) <= 9000 * u
  /\ forall f : list fl, nearly_unit f -> Forall2 (fun x y => near x y (27000 * u)) (q_rotate q f) (rq_rotate (Q (cos (th / 2)) (rscale (sin (th / 2)) w)) (values f)).
Proof.
  intros a w angle th La Fa Ha W1 Na Bth q. destruct (u_small prec ltac:(assumption)) as (U0 & U1). destruct (eta_small prec emax ltac:(assumption)) as (E0 & E1). assert (OB := om_big emax ltac:(assumption)).
  destruct (half_angle angle th Na Bth) as (NC & NS). assert (BW := unit_size w W1).
  unfold q. set (cf := f_cos (o_div angle (cst 2))) in *. set (sf := f_sin (o_div angle (cst 2))) in *. set (c := cos (th / 2)) in *. set (s := sin (th / 2)) in *.
  assert (C1 : Rabs c <= 1) by (apply Rabs_le; apply COS_bound). assert (S1 : Rabs s <= 1) by (apply Rabs_le; apply SIN_bound).
  assert (CS : c * c + s * s = 1) by (assert (T := sin2_cos2 (th / 2)); unfold Rsqr in T; fold s c in T; lra).
  assert (CF : Rabs (B2R cf) <= 101 / 100) by (destruct NC as (_ & H); apply Rabs_le_inv in H, C1; apply Rabs_le; lra).
  assert (VI : forall (x : fl) y, is_finite x = true -> Rabs (B2R x - y) <= 1030 * u -> Rabs y <= 1 -> is_finite (o_mul x sf) = true /\ Rabs (B2R (o_mul x sf) - s * y) <= 1065 * u).
  { intros x y Fx Hx Hy. assert (Bx : Rabs (B2R x) <= 102 / 100) by (apply Rabs_le_inv in Hx, Hy; apply Rabs_le; lra).
    destruct (near_mul prec emax x sf (B2R x) s 0 (31 * u) (102 / 100) 1 (near_exact prec emax x Fx) NS Bx S1 ltac:(nra)) as (Fp & Hp). split; [exact Fp|].
    replace (B2R (o_mul x sf) - s * y) with ((B2R (o_mul x sf) - B2R x * s) + (B2R x - y) * s) by ring.
    assert (H2 : Rabs ((B2R x - y) * s) <= 1030 * u * 1) by (rewrite Rabs_mult; apply Rmult_le_compat; auto using Rabs_pos).
    eapply Rle_trans; [apply Rabs_triang|]. nra. }
  clearbody cf sf c s.
  destruct a as [|a0 [|a1 [|a2 [|]]]]; try discriminate. inversion Fa as [|? ? F0 Fa1]; subst. inversion Fa1 as [|? ? F1 Fa2]; subst. inversion Fa2 as [|? ? F2 _]; subst.
  inversion Ha as [|? w0 ? ? A0 Ha1]; subst. inversion Ha1 as [|? w1 ? ? A1 Ha2]; subst. inversion Ha2 as [|? w2 ? ? A2 Ha3]; subst. inversion Ha3; subst.
  inversion BW as [|? ? B0 BW1]; subst. inversion BW1 as [|? ? B1 BW2]; subst. inversion BW2 as [|? ? B2 _]; subst.
  destruct (VI _ _ F0 A0 B0) as (G0 & V0). destruct (VI _ _ F1 A1 B1) as (G1 & V1). destruct (VI _ _ F2 A2 B2) as (G2 & V2).
  change (v_scale [a0; a1; a2] sf) with [o_mul a0 sf; o_mul a1 sf; o_mul a2 sf]. set (v0 := o_mul a0 sf) in *. set (v1 := o_mul a1 sf) in *. set (v2 := o_mul a2 sf) in *. clearbody v0 v1 v2.
  assert (SM : forall y, Rabs y <= 1 -> Rabs (s * y) <= 1) by (intros y Hy; rewrite Rabs_mult; assert (P := Rabs_pos y); assert (P' := Rabs_pos s); nra).
  assert (T0 := SM _ B0). assert (T1 := SM _ B1). assert (T2 := SM _ B2).
  assert (VS : forall x y, Rabs (x - y) <= 1065 * u -> Rabs y <= 1 -> Rabs x <= 101 / 100) by (intros x y Hx Hy; apply Rabs_le_inv in Hx, Hy; apply Rabs_le; lra).
  assert (W0 := VS _ _ V0 T0). assert (X1 := VS _ _ V1 T1). assert (W2 := VS _ _ V2 T2).
  assert (QF : quat_finite (Q cf [v0; v1; v2])). { split; [apply NC|]. split; [reflexivity|]. cbn [q_v]. repeat (apply Forall_cons; [assumption|]). apply Forall_nil. }
  assert (QS : qsize (quat_values (Q cf [v0; v1; v2])) (101 / 100)). { split; [exact CF|]. unfold quat_values, values. cbn [q_v map]. repeat (apply Forall_cons; [assumption|]). apply Forall_nil. }
  assert (QS' : qsize (Q c [s * w0; s * w1; s * w2]) (101 / 100)). { split; [cbn; lra|]. cbn [q_v]. apply Forall_cons; [lra|]. apply Forall_cons; [lra|]. apply Forall_cons; [lra|]. apply Forall_nil. }
  assert (EC : Rabs (B2R cf - c) <= 1065 * u) by (destruct NC as (_ & H); lra).
  split; [exact QF|]. split; [exact QS|]. split.
  - unfold rq_norm2, quat_values, values. cbn [q_r q_v map rdot].
    assert (LT : forall y, Rabs y <= 1 -> Rabs y <= 101 / 100) by (intros; lra). assert (P0 := product_close _ _ _ _ _ W0 (LT _ T0) V0 V0). assert (P1 := product_close _ _ _ _ _ X1 (LT _ T1) V1 V1). assert (P2 := product_close _ _ _ _ _ W2 (LT _ T2) V2 V2).
    assert (P3 := product_close _ _ _ _ _ CF (LT _ C1) EC EC). apply Rabs_le_inv in P0, P1, P2, P3.
    assert (E : c * c + (s * w0 * (s * w0) + (s * w1 * (s * w1) + (s * w2 * (s * w2) + 0))) = 1). { cbn [rdot] in W1. transitivity (c * c + s * s * (w0 * w0 + (w1 * w1 + (w2 * w2 + 0)))); [ring|]. rewrite W1. lra. }
    apply Rabs_le. lra.
  - intros f Hf. destruct (unit_facts prec emax ltac:(assumption) f Hf) as (Bf & _). destruct Hf as (Lf & Ff & _).
    assert (RN := rotate_near prec emax ltac:(assumption) ltac:(assumption) (Q cf [v0; v1; v2]) f QF QS Lf Ff Bf). set (g := q_rotate (Q cf [v0; v1; v2]) f) in *. clearbody g.
    destruct f as [|f0 [|f1 [|f2 [|]]]]; try discriminate. unfold quat_values, values, rscale in *. cbn [q_r q_v map] in *.
    assert (RC := rotate_close _ _ _ _ _ _ _ _ _ _ _ _ QS QS' EC V0 V1 V2 Bf). rewrite !rotate_poly in *.
    inversion RN as [|g0 ? ? ? (I0 & J0) RN1]; subst. inversion RN1 as [|g1 ? ? ? (I1 & J1) RN2]; subst. inversion RN2 as [|g2 ? ? ? (I2 & J2) RN3]; subst. inversion RN3; subst.
    inversion RC as [|? ? ? ? K0 RC1]; subst. inversion RC1 as [|? ? ? ? K1 RC2]; subst. inversion RC2 as [|? ? ? ? K2 _]; subst.
    assert (TR : forall x y z, Rabs (x - y) <= 140 * u -> Rabs (y - z) <= 25 * (1065 * u) -> Rabs (x - z) <= 27000 * u) by (intros x y z Hx Hy; apply Rabs_le_inv in Hx, Hy; apply Rabs_le; lra).
    apply Forall2_cons; [split; [exact I0|exact (TR _ _ _ J0 K0)]|]. apply Forall2_cons; [split; [exact I1|exact (TR _ _ _ J1 K1)]|]. apply Forall2_cons; [split; [exact I2|exact (TR _ _ _ J2 K2)]|]. apply Forall2_nil.
Qed.
End FP.
