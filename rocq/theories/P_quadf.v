(** Quadratic equations in machine arithmetic (C124). *)
From Coq Require Import ZArith Reals List Lia Lra Bool Psatz.
From Flocq Require Import Core BinarySingleNaN Mult_error.
From Verif Require Import Ops M_scalar Inst_F S_scalar S_rnd S_hit P_ieee P_fp P_fp4 P_fp5 P_hit P_hit2 P_ft P_sphere.
Import ListNotations.
Local Open Scope R_scope.

Lemma sqrt_diff : forall a b, 0 <= a -> 0 <= b -> Rabs (sqrt a - sqrt b) <= sqrt (Rabs (a - b)).
Proof.
  intros a b A B. assert (SA := sqrt_sqrt a A). assert (SB := sqrt_sqrt b B). assert (PA := sqrt_pos a). assert (PB := sqrt_pos b). apply Rsqr_incr_0; [|apply Rabs_pos|apply sqrt_pos]. rewrite Rsqr_sqrt by apply Rabs_pos. rewrite <- Rsqr_abs. unfold Rsqr.
  replace (a - b) with ((sqrt a - sqrt b) * (sqrt a + sqrt b)) by (transitivity (sqrt a * sqrt a - sqrt b * sqrt b); [ring|lra]). set (p := sqrt a) in *. set (q := sqrt b) in *. clearbody p q. rewrite Rabs_mult. rewrite (Rabs_pos_eq (p + q)) by lra. replace ((p - q) * (p - q)) with (Rabs (p - q) * Rabs (p - q)) by (rewrite <- Rabs_mult; apply Rabs_pos_eq, Rle_0_sqr). apply Rmult_le_compat_l; [apply Rabs_pos|]. apply Rabs_le. lra.
Qed.

Section FP.
Variables prec emax : Z.
Context {Hprec : Prec_gt_0 prec} {Hmax : Prec_lt_emax prec emax}.
Notation fl := (binary_float prec emax).
Notation u := (unit_roundoff prec).
Notation eta := (underflow_error prec emax).
Notation Om := (bpow radix2 emax).
Hypothesis U20 : (20 <= prec)%Z.
Hypothesis E20 : (20 <= emax)%Z.

Lemma twice : forall a : fl, is_finite a = true -> 2 * Rabs (B2R a) < Om -> is_finite (o_mul (cst 2) a) = true /\ B2R (o_mul (cst 2) a) = 2 * B2R a.
Proof.
  intros a F H. assert (P4 : (4 <= 2 ^ prec)%Z) by (change 4%Z with (2 ^ 2)%Z; apply Z.pow_le_mono_r; lia). destruct (F_cst prec emax 2 ltac:(lia)) as [F2 V2]. generalize (Bmult_correct prec emax Hprec Hmax mode_NE (cst 2) a). rewrite V2.
  assert (G : generic_format radix2 (SpecFloat.fexp prec emax) (2 * B2R a)). { replace (2 * B2R a) with (B2R a * bpow radix2 1) by (cbn; ring). apply mult_bpow_pos_exact_FLT; [apply generic_format_B2R|lia]. }
  rewrite round_generic by auto with typeclass_instances. rewrite Rlt_bool_true by (rewrite Rabs_mult, (Rabs_pos_eq 2) by lra; exact H). intros (V & K & _). split; [change (o_mul (cst 2) a) with (Bmult mode_NE (cst 2) a); rewrite K, F, F2; reflexivity|exact V].
Qed.
Lemma near_quot : forall (x y : fl) S, is_finite x = true -> B2R y <> 0 -> Rabs (B2R x / B2R y) <= S -> 1 <= S -> 2 * S <= Om -> near (o_div x y) (B2R x / B2R y) (1001 / 1000 * (u * S)).
Proof.
  intros x y S F Y B S1 SO. destruct (u_small prec U20) as [U0 U1]. destruct (eta_small prec emax E20) as [E0 E1]. assert (US : u * S <= / 1000000 * S) by (apply Rmult_le_compat_r; lra). assert (US1 : u * 1 <= u * S) by (apply Rmult_le_compat_l; lra). set (z := B2R x / B2R y) in *. assert (Z0 := Rabs_pos z). assert (ZU : Rabs z * u <= S * u) by (apply Rmult_le_compat_r; lra).
  destruct (div_ok prec emax x y F Y) as (G & d & e & D & E & V); [fold z; lra|]. fold z in V. split; [exact G|]. rewrite V. replace (z * (1 + d) + e - z) with (z * d + e) by ring. apply Rle_trans with (1 := Rabs_triang _ _). rewrite Rabs_mult. assert (Rabs z * Rabs d <= S * u) by (apply Rmult_le_compat; try apply Rabs_pos; lra). lra.
Qed.

Variables a b c eps : fl.
Variable s : R.
Hypotheses (Fa : is_finite a = true) (Fb : is_finite b = true) (Fc : is_finite c = true) (Fe : is_finite eps = true).
Hypotheses (A0 : B2R a <> 0) (AO : 2 * Rabs (B2R a) < Om) (S1 : 1 <= s) (Ps : Rabs (B2R b / (2 * B2R a)) <= s) (Qs : Rabs (B2R c / B2R a) <= s * s) (SO : 8 * (s * s) <= Om) (E0 : 0 <= B2R eps).
Let A := B2R a. Let B := B2R b. Let C := B2R c. Let P := B / (2 * A). Let Q := C / A. Let D := P * P - Q. Let e := B2R eps. Let E := 61 / 10 * (u * (s * s)).
Let p := o_div b (o_mul (cst 2) a). Let q := o_div c a. Let d := o_sub (o_mul p p) q.

Lemma sizes : 0 < u <= / 1000000 /\ 1 <= s * s /\ s <= s * s /\ 0 < u * s <= / 1000000 * s /\ 0 < u * (s * s) <= / 1000000 * (s * s) /\ 0 < eta <= / 1000 * (u * (s * s)) /\ eta <= / 1000 * (u * s).
Proof.
  destruct (u_small prec U20) as [U0 U1]. destruct (eta_small prec emax E20) as [H0 H1]. assert (SS : s * 1 <= s * s) by (apply Rmult_le_compat_l; lra). assert (u * 1 <= u * s) by (apply Rmult_le_compat_l; lra). assert (u * s <= u * (s * s)) by (apply Rmult_le_compat_l; lra). assert (u * s <= / 1000000 * s) by (apply Rmult_le_compat_r; lra). assert (u * (s * s) <= / 1000000 * (s * s)) by (apply Rmult_le_compat_r; lra). lra.
Qed.
Lemma p_near : near p P (1001 / 1000 * (u * s)).
Proof.
  destruct sizes as (U & SS & SL & US & UW & ET & ET2). destruct (twice a Fa AO) as (F2 & V2). unfold p, P, B, A. rewrite <- V2. apply near_quot; auto; rewrite ?V2; lra.
Qed.
Lemma q_near : near q Q (1001 / 1000 * (u * (s * s))).
Proof. destruct sizes as (U & SS & SL & US & UW & ET & ET2). unfold q, Q, C, A. apply near_quot; auto; lra. Qed.
Lemma d_near : near d D E /\ Rabs D <= 2 * (s * s).
Proof.
  destruct sizes as (U & SS & SL & US & UW & ET & ET2). assert (NP := p_near). assert (NQ := q_near). fold A B in Ps. fold A C in Qs. fold P in Ps. fold Q in Qs.
  assert (PP : near (o_mul p p) (P * P) (301 / 100 * (u * (s * s)))).
  { assert (X : (s + 1001 / 1000 * (u * s)) * (s + 1001 / 1000 * (u * s)) <= 1001 / 1000 * (s * s)) by (apply Rle_trans with (10002 / 10000 * s * (10002 / 10000 * s)); [apply Rmult_le_compat; lra|lra]). assert (X0 : 0 <= (s + 1001 / 1000 * (u * s)) * (s + 1001 / 1000 * (u * s))) by (apply Rmult_le_pos; lra).
    eapply near_le; [apply (near_mul prec emax _ _ _ _ _ _ s s NP NP Ps Ps)|].
    - apply Rle_lt_trans with (1001 / 1000 * (s * s) * (1001 / 1000) + eta); [apply Rplus_le_compat_r, Rmult_le_compat; lra|lra].
    - assert (Y : u * ((s + 1001 / 1000 * (u * s)) * (s + 1001 / 1000 * (u * s))) <= u * (1001 / 1000 * (s * s))) by (apply Rmult_le_compat_l; lra). assert (Z : 1001 / 1000 * (u * s) * (1001 / 1000 * (u * s)) <= / 100000 * s * (1001 / 1000 * (u * s))) by (apply Rmult_le_compat_r; lra). replace (/ 100000 * s * (1001 / 1000 * (u * s))) with (1001 / 100000000 * (u * (s * s))) in Z by field. replace (s * (1001 / 1000 * (u * s))) with (1001 / 1000 * (u * (s * s))) by ring. lra. }
  assert (P2 : 0 <= P * P <= s * s). { split; [apply Rle_0_sqr|]. replace (P * P) with (Rabs P * Rabs P) by (rewrite <- Rabs_mult; apply Rabs_pos_eq, Rle_0_sqr). apply Rmult_le_compat; try apply Rabs_pos; assumption. }
  assert (DB : Rabs D <= 2 * (s * s)) by (apply Rabs_le; apply Rabs_le_inv in Qs; unfold D; lra). split; [|exact DB].
  eapply near_le; [apply (near_sub prec emax _ _ _ _ _ _ _ PP NQ DB)|].
  - apply Rle_lt_trans with (2001 / 1000 * (s * s) * (1001 / 1000)); [apply Rmult_le_compat; lra|lra].
  - assert (u * (2 * (s * s) + 301 / 100 * (u * (s * s)) + 1001 / 1000 * (u * (s * s))) <= u * (2001 / 1000 * (s * s))) by (apply Rmult_le_compat_l; lra). unfold E. lra.
Qed.
Lemma unfold_solve : solve_quadratic a b c eps = if Rle_bool (Rabs (B2R d)) e then (1%nat, (o_neg p, o_nan)) else if Rlt_bool (B2R d) 0 then (0%nat, (o_nan, o_nan)) else (2%nat, (o_sub (o_sqrt d) p, o_sub (o_neg (o_sqrt d)) p)).
Proof.
  destruct d_near as ((Fd & _) & _). unfold solve_quadratic. fold p. fold q. fold d. rewrite is_zero_F by assumption. fold e. destruct (Rle_bool _ _); [reflexivity|]. destruct (F_cst0 prec emax) as [F0 V0]. change (o_lt d (cst 0)) with (Bltb d (cst 0 : fl)). rewrite Flt by assumption. rewrite V0. reflexivity.
Qed.
Lemma as_square : forall x, quadratic A B C x = A * ((x + P) * (x + P) - D).
Proof. intros x. unfold quadratic, D, Q, P. fold A in A0. field. exact A0. Qed.
Lemma roots2 : e < Rabs (B2R d) -> 0 <= B2R d -> exists g, (g = sqrt (B2R d)) /\ 0 <= g <= 1415 / 1000 * s /\ near (o_sub (o_sqrt d) p) (g - P) (49 / 10 * (u * s)) /\ near (o_sub (o_neg (o_sqrt d)) p) (- g - P) (49 / 10 * (u * s)).
Proof.
  intros H1 H2. destruct sizes as (U & SS & SL & US & UW & ET & ET2). destruct d_near as ((Fd & Ed) & DB). assert (NP := p_near). fold A B in Ps. fold P in Ps. apply Rabs_le_inv in Ed. apply Rabs_le_inv in DB. apply Rabs_le_inv in Ps. exists (sqrt (B2R d)). split; [reflexivity|]. set (g := sqrt (B2R d)). assert (G0 : 0 <= g) by apply sqrt_pos.
  assert (G1 : g <= 1415 / 1000 * s). { unfold g. rewrite <- (sqrt_square (1415 / 1000 * s)) by lra. apply sqrt_le_1_alt. unfold E in Ed. lra. }
  destruct (sqrt_acc prec emax d Fd H2) as (Fg & k & K & V). fold g in V. assert (NG : near (o_sqrt d) g (1415 / 1000 * (u * s))). { split; [exact Fg|]. rewrite V. replace (g * (1 + k) - g) with (g * k) by ring. rewrite Rabs_mult, (Rabs_pos_eq g) by exact G0. apply Rle_trans with (1415 / 1000 * s * u); [apply Rmult_le_compat; try apply Rabs_pos; lra|lra]. }
  assert (NM := near_neg prec emax _ _ _ NG). split; [lra|]. assert (OV : (2415 / 1000 * s + 1415 / 1000 * (u * s) + 1001 / 1000 * (u * s)) * (1 + u) < Om) by (apply Rle_lt_trans with (2416 / 1000 * s * (1001 / 1000)); [apply Rmult_le_compat; lra|lra]). assert (UU : u * (2415 / 1000 * s + 1415 / 1000 * (u * s) + 1001 / 1000 * (u * s)) <= u * (2416 / 1000 * s)) by (apply Rmult_le_compat_l; lra).
  split; (eapply near_le; [first [apply (near_sub prec emax _ _ _ _ _ _ (2415 / 1000 * s) NG NP)|apply (near_sub prec emax _ _ _ _ _ _ (2415 / 1000 * s) NM NP)]; [apply Rabs_le; lra|exact OV]|lra]).
Qed.
Lemma quad_all : exists n x1 x2, solve_quadratic a b c eps = (n, (x1, x2))
  /\ (e + E < D -> n = 2%nat) /\ (D < - (e + E) -> n = 0%nat) /\ (Rabs D <= e - E -> n = 1%nat)
  /\ (n = 0%nat \/ (n = 1%nat /\ is_finite x1 = true /\ Rabs (quadratic A B C (B2R x1)) <= Rabs A * (e + 62 / 10 * (u * (s * s))))
      \/ (n = 2%nat /\ is_finite x1 = true /\ is_finite x2 = true /\ Rabs (quadratic A B C (B2R x1)) <= Rabs A * (21 * (u * (s * s))) /\ Rabs (quadratic A B C (B2R x2)) <= Rabs A * (21 * (u * (s * s)))))
  /\ forall X, quadratic A B C X = 0 -> (n = 0%nat -> e < E) /\ (n = 1%nat -> Rabs (B2R x1 - X) <= sqrt (e + E) + 101 / 100 * (u * s)) /\ (n = 2%nat -> Rabs (B2R x1 - X) <= 3 * (sqrt u * s) \/ Rabs (B2R x2 - X) <= 3 * (sqrt u * s)).
Proof.
  destruct sizes as (U & SS & SL & US & UW & ET & ET2). destruct d_near as ((Fd & Ed) & DB). rewrite unfold_solve. assert (NP := p_near). assert (Ed' := Rabs_le_inv _ _ Ed). fold e in E0. assert (EP : 0 < E) by (unfold E; lra). assert (AP := Rabs_pos A).
  assert (ROOT : forall X, quadratic A B C X = 0 -> 0 <= D /\ (X = sqrt D - P \/ X = - sqrt D - P)). { intros X HX. rewrite as_square in HX. apply Rmult_integral in HX. destruct HX as [HX|HX]; [contradiction|]. assert (D0 : 0 <= D) by (assert (0 <= (X + P) * (X + P)) by apply Rle_0_sqr; lra). split; [exact D0|]. assert (SD := sqrt_sqrt D D0). assert (Z : (X + P - sqrt D) * (X + P + sqrt D) = 0) by (replace ((X + P - sqrt D) * (X + P + sqrt D)) with ((X + P) * (X + P) - sqrt D * sqrt D) by ring; lra). apply Rmult_integral in Z. destruct Z; [left|right]; lra. }
  assert (RES : forall x k, Rabs ((x + P) * (x + P) - D) <= k -> Rabs (quadratic A B C x) <= Rabs A * k) by (intros x k Hk; rewrite as_square, Rabs_mult; apply Rmult_le_compat_l; assumption).
  destruct (Rle_bool_spec (Rabs (B2R d)) e) as [H|H].
  - exists 1%nat, (o_neg p), o_nan. split; [reflexivity|]. apply Rabs_le_inv in H. split; [intro K; exfalso; lra|]. split; [intro K; exfalso; lra|]. split; [reflexivity|]. assert (NN := near_neg prec emax _ _ _ NP). destruct NN as (Fn & Vn).
    split; [right; left; split; [reflexivity|]; split; [exact Fn|]|].
    + apply RES. assert (Y := Vn). replace (B2R (o_neg p) - - P) with (B2R (o_neg p) + P) in Y by ring. set (w := B2R (o_neg p) + P) in *. assert (W : 0 <= w * w <= / 1000 * (u * (s * s))). { split; [apply Rle_0_sqr|]. replace (w * w) with (Rabs w * Rabs w) by (rewrite <- Rabs_mult; apply Rabs_pos_eq, Rle_0_sqr). apply Rle_trans with (1001 / 1000 * (/ 1000000 * s) * (1001 / 1000 * (u * s))); [apply Rmult_le_compat; try apply Rabs_pos; lra|]. replace (1001 / 1000 * (/ 1000000 * s) * (1001 / 1000 * (u * s))) with (1002001 / 1000000000000 * (u * (s * s))) by field. lra. }
      apply Rabs_le. unfold E in *. lra.
    + intros X HX. destruct (ROOT X HX) as (D0 & RX). split; [discriminate|]. split; [|discriminate]. intros _. assert (SQ : sqrt D <= sqrt (e + E)) by (apply sqrt_le_1_alt; lra). assert (SP := sqrt_pos D). apply Rabs_le_inv in Vn. apply Rabs_le. destruct RX as [-> | ->]; lra.
  - destruct (Rlt_bool_spec (B2R d) 0) as [H0|H0].
    + exists 0%nat, o_nan, o_nan. split; [reflexivity|]. rewrite Rabs_left in H by exact H0. split; [intro K; exfalso; lra|]. split; [reflexivity|]. split; [intro K; exfalso; apply Rabs_le_inv in K; lra|]. split; [left; reflexivity|]. intros X HX. destruct (ROOT X HX) as (D0 & _). split; [intros _; lra|]. split; discriminate.
    + destruct (roots2 H H0) as (g & Eg & Bg & (F1 & N1) & (F2 & N2)). rewrite Rabs_pos_eq in H by exact H0. exists 2%nat, (o_sub (o_sqrt d) p), (o_sub (o_neg (o_sqrt d)) p). set (x1 := o_sub (o_sqrt d) p) in *. set (x2 := o_sub (o_neg (o_sqrt d)) p) in *. split; [reflexivity|]. split; [reflexivity|]. split; [intro K; exfalso; lra|]. split; [intro K; exfalso; apply Rabs_le_inv in K; lra|].
      assert (GG : g * g = B2R d) by (rewrite Eg; apply sqrt_sqrt, H0).
      assert (SQR : forall w, Rabs w <= 49 / 10 * (u * s) -> Rabs (2 * (g * w) + w * w) <= 139 / 10 * (u * (s * s))). { intros w Hw. replace (2 * (g * w) + w * w) with ((2 * g + w) * w) by ring. rewrite Rabs_mult. apply Rle_trans with (28305 / 10000 * s * (49 / 10 * (u * s))); [|replace (28305 / 10000 * s * (49 / 10 * (u * s))) with (1386945 / 100000 * (u * (s * s))) by field; lra]. apply Rmult_le_compat; try apply Rabs_pos; [|exact Hw]. apply Rabs_le_inv in Hw. apply Rabs_le. lra. }
      split; [right; right; split; [reflexivity|]; split; [exact F1|]; split; [exact F2|]; split; apply RES|].
      * set (w := B2R x1 - (g - P)) in *. assert (S := Rabs_le_inv _ _ (SQR w N1)). replace ((B2R x1 + P) * (B2R x1 + P) - D) with (2 * (g * w) + w * w + (g * g - D)) by (unfold w; ring). rewrite GG. apply Rabs_le. unfold E in *. lra.
      * set (w := - (B2R x2 - (- g - P))) in *. assert (S := Rabs_le_inv _ _ (SQR w ltac:(unfold w; rewrite Rabs_Ropp; exact N2))). replace ((B2R x2 + P) * (B2R x2 + P) - D) with (2 * (g * w) + w * w + (g * g - D)) by (unfold w; ring). rewrite GG. apply Rabs_le. unfold E in *. lra.
      * intros X HX. destruct (ROOT X HX) as (D0 & RX). split; [discriminate|]. split; [discriminate|]. intros _.
        assert (GD : Rabs (g - sqrt D) <= 248 / 100 * (sqrt u * s)). { rewrite Eg. apply Rle_trans with (1 := sqrt_diff _ _ H0 D0). apply Rle_trans with (sqrt E); [apply sqrt_le_1_alt; exact Ed|]. apply Rle_trans with (sqrt (248 / 100 * 248 / 100 * (u * (s * s)))); [apply sqrt_le_1_alt; unfold E; lra|]. right. replace (248 / 100 * 248 / 100 * (u * (s * s))) with (u * ((248 / 100 * s) * (248 / 100 * s))) by field. rewrite sqrt_mult_alt by lra. rewrite sqrt_square by lra. ring. }
        assert (UU : u * s <= / 1000 * (sqrt u * s)). { replace (/ 1000 * (sqrt u * s)) with ((/ 1000 * sqrt u) * s) by ring. apply Rmult_le_compat_r; [lra|]. assert (SU : sqrt u <= / 1000) by (rewrite <- (sqrt_square (/ 1000)) by lra; apply sqrt_le_1_alt; lra). rewrite <- (sqrt_sqrt u) at 1 by lra. apply Rmult_le_compat_r; [apply sqrt_pos|exact SU]. }
        apply Rabs_le_inv in GD. apply Rabs_le_inv in N1. apply Rabs_le_inv in N2. destruct RX as [-> | ->]; [left|right]; apply Rabs_le; lra.
Qed.
End FP.

(** (3x + 10000001)^2 = 0 has the solution -10000001/3, but none is found. *)
Definition sq_a : double := cst 9.
Definition sq_b : double := cst 60000006.
Definition sq_c : double := cst 100000020000001.
Lemma missed : (let '(n, _) := solve_quadratic sq_a sq_b sq_c almost_zero in Nat.eqb n 0) = true /\ quadratic (B2R sq_a) (B2R sq_b) (B2R sq_c) (- 10000001 / 3) = 0.
Proof.
  split; [vm_cast_no_check (eq_refl true)|]. assert (V : forall z, (Z.abs z <= 2 ^ 53)%Z -> B2R (cst z : double) = IZR z) by (intros z H; apply (F_cst 53 1024 z H)). unfold sq_a, sq_b, sq_c. rewrite !V by (vm_compute; discriminate). unfold quadratic. field.
Qed.
Lemma quadratic_missed : exists a b c : double, fst (solve_quadratic a b c almost_zero) = 0%nat /\ exists x, quadratic (B2R a) (B2R b) (B2R c) x = 0.
Proof.
  exists sq_a, sq_b, sq_c. destruct missed as (H & R). split; [|eexists; exact R]. destruct (solve_quadratic sq_a sq_b sq_c almost_zero) as (n & r). cbn [fst]. now apply Nat.eqb_eq.
Qed.
