(** Points in polygons in machine arithmetic (C116). *)
From Coq Require Import ZArith Reals List Lia Lra Bool Psatz Arith.
From Flocq Require Import Core BinarySingleNaN.
From Verif Require Import Ops M_scalar M_vec M_geom M_intersect Inst_F S_vec S_rnd S_hit P_ord P_ieee P_vec P_fp P_fp4 P_hit P_hit2 P_hit3 P_hit4 P_ft.
Import ListNotations.
Local Open Scope R_scope.

Section FP.
Variables prec emax : Z.
Context {Hprec : Prec_gt_0 prec} {Hmax : Prec_lt_emax prec emax}.
Notation fl := (binary_float prec emax).
Notation u := (unit_roundoff prec).
Notation eta := (underflow_error prec emax).
Notation Om := (bpow radix2 emax).
Hypothesis U20 : (20 <= prec)%Z.
Hypothesis E20 : (20 <= emax)%Z.
Notation az := (B2R (almost_zero : fl)).

Lemma lt_F : forall x y : fl, is_finite x = true -> is_finite y = true -> o_lt x y = Rlt_bool (B2R x) (B2R y).
Proof. intros x y F G. cbn [o_lt Fops]. exact (Flt prec emax x y F G). Qed.
(** A difference has the sign of the exact one. *)
Lemma sign_of : forall (x : fl) a, near x a (u * Rabs a) -> exists d, Rabs d <= u /\ B2R x = a * (1 + d).
Proof.
  intros x a (_ & H). destruct (u_small prec U20) as [U0 U1]. destruct (Req_dec a 0) as [->|A].
  - exists 0. rewrite Rabs_R0, Rmult_0_r in H. rewrite Rabs_R0. split; [lra|]. assert (B2R x - 0 = 0) by (destruct (Req_dec (B2R x - 0) 0) as [E|E]; [exact E|apply Rabs_pos_lt in E; lra]). lra.
  - exists ((B2R x - a) / a). split; [|field; exact A]. unfold Rdiv. rewrite Rabs_mult, Rabs_inv. apply Rmult_le_reg_r with (Rabs a); [now apply Rabs_pos_lt|]. rewrite Rmult_assoc, Rinv_l by (apply Rabs_no_R0; exact A). lra.
Qed.
Lemma signs : forall (x : fl) a, near x a (u * Rabs a) -> o_lt x (cst 0) = Rlt_bool a 0 /\ o_lt (cst 0) x = Rlt_bool 0 a.
Proof.
  intros x a H. assert (F := proj1 H). destruct (sign_of x a H) as (d & D & E). destruct (u_small prec U20) as [U0 U1]. destruct (F_cst0 prec emax) as [F0 V0]. apply Rabs_le_inv in D.
  rewrite !lt_F by assumption. rewrite V0, E. split.
  - destruct (Rlt_bool_spec a 0) as [L|L]; [apply Rlt_bool_true|apply Rlt_bool_false]; nra.
  - destruct (Rlt_bool_spec 0 a) as [L|L]; [apply Rlt_bool_true|apply Rlt_bool_false]; nra.
Qed.
Lemma big_test : forall (x : fl) a, near x a (u * Rabs a) -> / 900 < Rabs a -> sc_is_zero x almost_zero = false.
Proof.
  intros x a H B. assert (F := proj1 H). destruct (sign_of x a H) as (d & D & E). destruct (u_small prec U20) as [U0 U1]. destruct (az_near prec emax U20 E20) as (FA & AZ). apply Rabs_le_inv in AZ, D.
  rewrite is_zero_F by (assumption || lra). apply Rle_bool_false. rewrite E, Rabs_mult, (Rabs_pos_eq (1 + d)) by lra. nra.
Qed.

Lemma opposite : forall y0 y1 a b k, 0 <= k <= / 1000 -> Rabs a <= k -> Rabs b <= k -> y0 * y1 < 0 ->
  y1 - y0 <> 0 /\ Rabs y0 <= Rabs (y1 - y0) /\ Rabs y1 <= Rabs (y1 - y0) /\ Rabs (y0 * (1 + a)) <= Rabs (y1 * (1 + b) - y0 * (1 + a))
  /\ 0 <= - y0 / (y1 - y0) <= 1 /\ exists t, Rabs t <= k /\ y1 * (1 + b) - y0 * (1 + a) = (y1 - y0) * (1 + t).
Proof.
  intros y0 y1 a b k K HA HB YY. apply Rabs_le_inv in HA, HB.
  assert (D0 : y1 - y0 <> 0) by (intros Z; assert (E : y1 = y0) by lra; rewrite E in YY; assert (0 <= y0 * y0) by apply Rle_0_sqr; lra).
  assert (SG : (y0 < 0 /\ 0 < y1) \/ (0 < y0 /\ y1 < 0)) by (destruct (Rtotal_order y0 0) as [L|[L|L]]; [left|rewrite L in YY; lra|right]; split; nra).
  assert (P0 : forall x c, - k <= c <= k -> 0 < x -> 0 < x * (1 + c) /\ - k * x <= x * c <= k * x) by (intros x c C X; split; [apply Rmult_lt_0_compat; lra|split; nra]).
  assert (P1 : forall x c, - k <= c <= k -> x < 0 -> x * (1 + c) < 0 /\ k * x <= x * c <= - k * x) by (intros x c C X; split; [assert (0 < (-x) * (1 + c)) by (apply Rmult_lt_0_compat; lra); lra|split; nra]).
  split; [exact D0|]. assert (T : exists t, Rabs t <= k /\ y1 * (1 + b) - y0 * (1 + a) = (y1 - y0) * (1 + t)).
  { exists ((y1 * b - y0 * a) / (y1 - y0)). split; [|field; exact D0]. unfold Rdiv. rewrite Rabs_mult, Rabs_inv. apply Rmult_le_reg_r with (Rabs (y1 - y0)); [now apply Rabs_pos_lt|]. rewrite Rmult_assoc, Rinv_l, Rmult_1_r by (apply Rabs_no_R0; exact D0).
    destruct SG as [[S0 S1]|[S0 S1]]; [rewrite (Rabs_pos_eq (y1 - y0)) by lra; destruct (P1 y0 a HA S0) as [_ Q0]; destruct (P0 y1 b HB S1) as [_ Q1]|rewrite (Rabs_left (y1 - y0)) by lra; destruct (P0 y0 a HA S0) as [_ Q0]; destruct (P1 y1 b HB S1) as [_ Q1]]; apply Rabs_le; lra. }
  assert (R : 0 <= - y0 / (y1 - y0) <= 1).
  { assert (E : - y0 / (y1 - y0) * (y1 - y0) = - y0) by (field; exact D0). set (r := - y0 / (y1 - y0)) in *. destruct SG as [[S0 S1]|[S0 S1]]; split; nra. }
  destruct SG as [[S0 S1]|[S0 S1]]; [destruct (P1 y0 a HA S0) as [Q0 _]; destruct (P0 y1 b HB S1) as [Q1 _]; rewrite (Rabs_pos_eq (y1 - y0)), (Rabs_left y0), (Rabs_pos_eq y1), (Rabs_left (y0 * (1 + a))), (Rabs_pos_eq (y1 * (1 + b) - y0 * (1 + a))) by lra
   |destruct (P0 y0 a HA S0) as [Q0 _]; destruct (P1 y1 b HB S1) as [Q1 _]; rewrite (Rabs_left (y1 - y0)), (Rabs_pos_eq y0), (Rabs_left y1), (Rabs_pos_eq (y0 * (1 + a))), (Rabs_left (y1 * (1 + b) - y0 * (1 + a))) by lra]; repeat split; try lra; exact T.
Qed.
Lemma quotient_error : forall z t k Z, 0 <= k <= / 1000 -> Rabs t <= k -> Rabs z <= Z -> Rabs (z / (1 + t) - z) <= 101 / 100 * (k * Z).
Proof.
  intros z t k Z K T B. assert (T' := Rabs_le_inv _ _ T). replace (z / (1 + t) - z) with (- t / (1 + t) * z) by (field; lra). rewrite Rabs_mult. rewrite <- Rmult_assoc. apply Rmult_le_compat; auto using Rabs_pos.
  unfold Rdiv. rewrite Rabs_mult, Rabs_Ropp, Rabs_inv, (Rabs_pos_eq (1 + t)) by lra. apply Rmult_le_reg_r with (1 + t); [lra|]. rewrite Rmult_assoc, Rinv_l by lra. nra.
Qed.

Lemma crossing_sign : forall x0 y0 x1 y1, y0 * y1 < 0 -> let c := x0 - y0 * (x1 - x0) / (y1 - y0) in
  (0 < x0 -> 0 < x1 -> 0 < c) /\ (x0 < 0 -> x1 < 0 -> c < 0).
Proof.
  intros x0 y0 x1 y1 YY c. destruct (opposite y0 y1 0 0 0) as (D1 & _ & _ & _ & R01 & _); [lra|rewrite Rabs_R0; lra..|exact YY|].
  assert (EC : c = - y0 / (y1 - y0) * x1 + (1 - - y0 / (y1 - y0)) * x0) by (unfold c; field; exact D1). rewrite EC. clear EC. set (r := - y0 / (y1 - y0)) in *. clearbody r. clear - R01.
  split; intros A B; destruct (Rle_lt_dec (/ 2) r); nra.
Qed.

Section Edge.
Variables (x0 y0 x1 y1 : R) (M m : R) (X0 Y0 Z0 X1 Y1 Z1 : fl).
Hypothesis (NX0 : near X0 x0 (u * Rabs x0)) (NY0 : near Y0 y0 (u * Rabs y0)) (NX1 : near X1 x1 (u * Rabs x1)) (NY1 : near Y1 y1 (u * Rabs y1)).
Hypothesis (BX0 : Rabs x0 <= 2 * M) (BY0 : Rabs y0 <= 2 * M) (BX1 : Rabs x1 <= 2 * M) (BY1 : Rabs y1 <= 2 * M) (M1 : 1 <= M) (MO : 32 * (M * M) <= Om) (Hm : / 900 + 100 * (u * M) <= m).
Let c := x0 - y0 * (x1 - x0) / (y1 - y0).
Lemma room : forall A, 0 <= A -> A <= 16 * (M * M) -> A * (1 + u) + eta < Om.
Proof.
  intros A A0 A1. destruct (u_small prec U20) as [U0 U1]. destruct (eta_small prec emax E20) as [T0 TS]. assert (MM : 1 <= M * M) by nra.
  assert (u * A <= / 1000000 * A) by (apply Rmult_le_compat_r; lra). lra.
Qed.
Lemma crossing_value : y0 * y1 < 0 -> m < Rabs y0 \/ m < Rabs y1 ->
  near (o_add (o_div (o_mul (o_neg Y0) (o_sub X1 X0)) (o_sub Y1 Y0)) X0) c (50 * (u * M)).
Proof.
  intros YY YB. destruct (u_small prec U20) as [U0 U1]. destruct (eta_small prec emax E20) as [T0 TS].
  assert (MM : M <= M * M) by nra. assert (UU : forall A k, A <= k * M -> u * A <= k * (u * M)) by (intros A k L; replace (k * (u * M)) with (u * (k * M)) by ring; apply Rmult_le_compat_l; lra).
  assert (UM : u * M <= / 1000000 * M) by (apply Rmult_le_compat_r; lra). assert (UMU := UU _ _ UM). assert (UM0 : u <= u * M) by (rewrite <- (Rmult_1_r u) at 1; apply Rmult_le_compat_l; lra).
  destruct (sign_of _ _ NY0) as (a & HA & EA). destruct (sign_of _ _ NY1) as (b & HB & EB). assert (FY0 := proj1 NY0). assert (FY1 := proj1 NY1). assert (FX0 := proj1 NX0).
  assert (W0 := UU _ _ BX0). assert (W1 := UU _ _ BX1). assert (W2 := UU _ _ BY0). assert (W3 := UU _ _ BY1).
  assert (VY0 := near_val _ _ _ _ _ _ NY0 BY0). assert (VY1 := near_val _ _ _ _ _ _ NY1 BY1).
  assert (P0 := Rabs_pos x0). assert (P1 := Rabs_pos x1). assert (UP0 : 0 <= u * Rabs x0) by (apply Rmult_le_pos; lra). assert (UP1 : 0 <= u * Rabs x1) by (apply Rmult_le_pos; lra).
  assert (DXB : Rabs (x1 - x0) <= 4 * M) by (apply Rabs_le_inv in BX0, BX1; apply Rabs_le; lra).
  assert (NDX : near (o_sub X1 X0) (x1 - x0) (801 / 100 * (u * M))).
  { eapply near_le; [apply (near_sub prec emax X1 X0 x1 x0 _ _ (4 * M) NX1 NX0 DXB)|].
    - assert (R := room (4 * M + u * Rabs x1 + u * Rabs x0)). lra.
    - assert (Q : 4 * M + u * Rabs x1 + u * Rabs x0 <= 4001 / 1000 * M) by lra. apply UU in Q. lra. }
  set (DX := o_sub X1 X0) in *. assert (VDX := near_val _ _ _ _ _ _ NDX DXB). assert (FDX := proj1 NDX).
  destruct (opposite y0 y1 a b u) as (D1 & YL0 & YL1 & RB & R01 & t & HT & EY); [lra|assumption..|]. rewrite <- EA, <- EB in EY. rewrite <- EA, <- EB in RB.
  set (Y := B2R Y1 - B2R Y0) in *. assert (DB : m < Rabs (y1 - y0)) by lra. assert (M9 : / 900 <= m) by lra.
  assert (HT3 := Rabs_le_inv _ _ HT).
  assert (YA : / 901 <= Rabs Y <= 401 / 100 * M).
  { assert (E : Rabs Y = Rabs (y1 - y0) + t * Rabs (y1 - y0)) by (rewrite EY, Rabs_mult, (Rabs_pos_eq (1 + t)) by lra; ring). assert (Q : Rabs (y1 - y0) <= 4 * M) by (apply Rabs_le_inv in BY0, BY1; apply Rabs_le; lra).
    assert (- (/ 1000000) * Rabs (y1 - y0) <= t * Rabs (y1 - y0)) by (apply Rmult_le_compat_r; lra). assert (t * Rabs (y1 - y0) <= / 1000000 * Rabs (y1 - y0)) by (apply Rmult_le_compat_r; lra). lra. }
  assert (Y00 : Y <> 0) by (intros Z; rewrite Z, Rabs_R0 in YA; lra).
  assert (ND : near (o_sub Y1 Y0) Y (u * Rabs Y)).
  { eapply near_le; [apply (near_sub prec emax Y1 Y0 _ _ 0 0 (Rabs Y) (near_exact prec emax Y1 FY1) (near_exact prec emax Y0 FY0) (Rle_refl _))|]. assert (R := room (Rabs Y + 0 + 0)). lra. lra. }
  destruct (sign_of _ _ ND) as (t' & HT' & ED). set (D := o_sub Y1 Y0) in *.
  destruct (opp_F prec emax Y0 FY0) as (FN & VN). assert (VA : Rabs (B2R (o_neg Y0)) = Rabs (B2R Y0)) by (rewrite VN; apply Rabs_Ropp).
  assert (PB : 0 <= Rabs (B2R Y0) * Rabs (B2R DX) <= 3 * M * (5 * M)) by (split; [apply Rmult_le_pos; apply Rabs_pos|apply Rmult_le_compat; auto using Rabs_pos; lra]).
  assert (NN : near (o_mul (o_neg Y0) DX) (B2R (o_neg Y0) * B2R DX) (u * (Rabs (B2R Y0) * Rabs (B2R DX)) + eta)).
  { rewrite <- VA. eapply near_le; [apply (near_mul prec emax (o_neg Y0) DX _ _ 0 0 _ _ (near_exact prec emax _ FN) (near_exact prec emax _ FDX) (Rle_refl _) (Rle_refl _))|]; rewrite VA, !Rplus_0_r.
    - apply room; lra.
    - rewrite !Rmult_0_r. lra. }
  rewrite VN in NN. set (N := o_mul (o_neg Y0) DX) in *. destruct NN as (FNN & HN).
  set (rho := - B2R Y0 / Y) in *. assert (YP : 0 < Rabs Y) by lra. assert (YI : / Rabs Y * Rabs Y = 1) by (apply Rinv_l; lra).
  assert (HR : Rabs rho <= 1) by (unfold rho, Rdiv; rewrite Rabs_mult, Rabs_Ropp, Rabs_inv; apply Rmult_le_reg_r with (Rabs Y); [exact YP|]; rewrite Rmult_assoc, YI; lra).
  assert (Q1 : Rabs (B2R N / Y - rho * B2R DX) <= u * Rabs (B2R DX) + 901 * eta).
  { replace (B2R N / Y - rho * B2R DX) with ((B2R N - - B2R Y0 * B2R DX) * / Y) by (unfold rho; field; exact Y00). rewrite Rabs_mult, Rabs_inv. apply Rmult_le_reg_r with (Rabs Y); [exact YP|]. rewrite Rmult_assoc, YI, Rmult_1_r.
    eapply Rle_trans; [exact HN|]. rewrite Rmult_plus_distr_r. apply Rplus_le_compat.
    - rewrite Rmult_assoc. apply Rmult_le_compat_l; [lra|]. rewrite Rmult_comm. apply Rmult_le_compat_l; [apply Rabs_pos|exact RB].
    - rewrite (Rmult_comm 901), Rmult_assoc. rewrite <- (Rmult_1_r eta) at 1. apply Rmult_le_compat_l; lra. }
  assert (HDX : Rabs (B2R DX) <= 401 / 100 * M) by lra. assert (UDX := UU _ _ HDX).
  assert (RD : Rabs (rho * B2R DX) <= 1 * (401 / 100 * M)) by (rewrite Rabs_mult; apply Rmult_le_compat; auto using Rabs_pos).
  assert (RR : Rabs (rho - - y0 / (y1 - y0)) <= 201 / 100 * u).
  { assert (ER : rho = - y0 / (y1 - y0) * ((1 + a) / (1 + t))) by (unfold rho; rewrite EY, EA; field; split; [lra|exact D1]).
    apply Rabs_le_inv in HA. rewrite ER. set (r := - y0 / (y1 - y0)) in *. replace (r * ((1 + a) / (1 + t)) - r) with (r * ((a - t) / (1 + t))) by (field; lra). rewrite Rabs_mult, (Rabs_pos_eq r) by lra.
    assert (K : Rabs ((a - t) / (1 + t)) <= 201 / 100 * u). { unfold Rdiv. rewrite Rabs_mult, Rabs_inv, (Rabs_pos_eq (1 + t)) by lra. apply Rmult_le_reg_r with (1 + t); [lra|]. rewrite Rmult_assoc, Rinv_l by lra. assert (Rabs (a - t) <= 2 * u) by (apply Rabs_le; lra). assert (201 / 100 * u * - / 1000000 <= 201 / 100 * u * t) by (apply Rmult_le_compat_l; lra). lra. }
    assert (K0 := Rabs_pos ((a - t) / (1 + t))). rewrite <- (Rmult_1_l (201 / 100 * u)). apply Rmult_le_compat; lra. }
  set (r := - y0 / (y1 - y0)) in *.
  assert (Q2 : Rabs (rho * B2R DX - r * (x1 - x0)) <= 201 / 100 * u * (401 / 100 * M) + 1 * (801 / 100 * (u * M))).
  { replace (rho * B2R DX - r * (x1 - x0)) with ((rho - r) * B2R DX + r * (B2R DX - (x1 - x0))) by ring. eapply Rle_trans; [apply Rabs_triang|]. apply Rplus_le_compat; rewrite Rabs_mult; [apply Rmult_le_compat; auto using Rabs_pos|]. rewrite (Rabs_pos_eq r) by lra. destruct NDX as (_ & K). apply Rmult_le_compat; auto using Rabs_pos; lra. }
  set (z := B2R N / Y) in *. assert (ZB : Rabs z <= 402 / 100 * M) by (apply Rabs_le_inv in Q1, RD; apply Rabs_le; lra).
  assert (HT2 := Rabs_le_inv _ _ HT'). assert (D0 : B2R D <> 0) by (rewrite ED; apply Rmult_integral_contrapositive_currified; [exact Y00|lra]).
  assert (ZD : B2R N / B2R D = z / (1 + t')) by (rewrite ED; unfold z; field; split; (lra || exact Y00)).
  assert (UK : 0 <= u <= / 1000) by lra. assert (Z2 := quotient_error z t' u _ UK HT' ZB).
  assert (Z3 : Rabs (z / (1 + t')) <= 403 / 100 * M) by (apply Rabs_le_inv in Z2, ZB; apply Rabs_le; lra).
  destruct (div_ok prec emax N D FNN D0) as (FQ & d & e & Hd & He & EQ). { rewrite ZD. apply room; [apply Rabs_pos|lra]. }
  rewrite ZD in EQ. set (q := o_div N D) in *. assert (UZ := UU _ _ Z3).
  assert (QD : Rabs (B2R q - z / (1 + t')) <= u * Rabs (z / (1 + t')) + eta). { rewrite EQ. replace (z / (1 + t') * (1 + d) + e - z / (1 + t')) with (d * (z / (1 + t')) + e) by ring. eapply Rle_trans; [apply Rabs_triang|]. apply Rplus_le_compat; [|exact He]. rewrite Rabs_mult. apply Rmult_le_compat_r; auto using Rabs_pos. }
  assert (NQ : near q (r * (x1 - x0)) (35 * (u * M))). { split; [exact FQ|]. apply Rabs_le_inv in QD, Z2, Q1, Q2. apply Rabs_le. lra. }
  assert (EC : c = r * (x1 - x0) + x0) by (unfold c, r; field; exact D1).
  assert (CB : Rabs (r * (x1 - x0) + x0) <= 2 * M).
  { replace (r * (x1 - x0) + x0) with (r * x1 + (1 - r) * x0) by ring. eapply Rle_trans; [apply Rabs_triang|]. rewrite !Rabs_mult, (Rabs_pos_eq r), (Rabs_pos_eq (1 - r)) by lra. assert (r * Rabs x1 <= r * (2 * M)) by (apply Rmult_le_compat_l; lra). assert ((1 - r) * Rabs x0 <= (1 - r) * (2 * M)) by (apply Rmult_le_compat_l; lra). lra. }
  rewrite EC. eapply near_le; [apply (near_add prec emax q X0 _ _ _ _ _ NQ NX0 CB)|].
  - assert (R := room (2 * M + 35 * (u * M) + u * Rabs x0)). lra.
  - assert (Q : 2 * M + 35 * (u * M) + u * Rabs x0 <= 3 * M) by lra. apply UU in Q. lra.
Qed.
Lemma edge_F : y0 <> 0 -> y1 <> 0 -> (0 < y0 * y1 \/ m < Rabs y0 \/ m < Rabs y1) -> (m < Rabs x0 \/ m < Rabs y0) -> (y0 * y1 < 0 -> m < Rabs c) ->
  let e := polygon_edge [X0; Y0; Z0] [X1; Y1; Z1] in
  (y0 * y1 < 0 -> (e = 1%Z /\ 0 < c) \/ (e = 0%Z /\ c < 0)) /\ (~ y0 * y1 < 0 -> e = 0%Z).
Proof.
  intros N0 N1 SS NV NC e. destruct (u_small prec U20) as [U0 U1]. assert (UM : 0 <= u * M) by nra. assert (M9 : / 900 <= m) by lra. unfold e, polygon_edge.
  change (vx [X0; Y0; Z0]) with X0. change (vy [X0; Y0; Z0]) with Y0. change (vx [X1; Y1; Z1]) with X1. change (vy [X1; Y1; Z1]) with Y1.
  destruct (signs _ _ NX0) as (-> & ->). destruct (signs _ _ NY0) as (-> & ->). destruct (signs _ _ NX1) as (-> & ->). destruct (signs _ _ NY1) as (-> & ->).
  assert (ZV : v_is_zero [X0; Y0; Z0] almost_zero = false). { cbn [v_is_zero forallb]. destruct NV as [V|V]; [rewrite (big_test _ _ NX0) by lra; reflexivity|rewrite (big_test _ _ NY0) by lra; apply andb_false_r]. }
  rewrite ZV. split; intros D.
  - assert (F : Rlt_bool 0 y0 && Rlt_bool 0 y1 = false) by (destruct (Rlt_bool_spec 0 y0), (Rlt_bool_spec 0 y1); try reflexivity; nra). assert (G : Rlt_bool y0 0 && Rlt_bool y1 0 = false) by (destruct (Rlt_bool_spec y0 0), (Rlt_bool_spec y1 0); try reflexivity; nra).
    rewrite F, G, !orb_false_r. assert (YB : m < Rabs y0 \/ m < Rabs y1) by (destruct SS as [S|S]; [lra|exact S]).
    replace (sc_is_zero Y0 almost_zero && sc_is_zero Y1 almost_zero) with false by (destruct YB as [B|B]; [rewrite (big_test _ _ NY0) by lra; reflexivity|rewrite (big_test _ _ NY1) by lra; symmetry; apply andb_false_r]).
    destruct (crossing_sign x0 y0 x1 y1 D) as [CP CN]. fold c in CP, CN.
    destruct (Rlt_bool 0 x0 && Rlt_bool 0 x1) eqn:P.
    { left. split; [reflexivity|]. apply andb_prop in P as [P1 P2]. revert P1 P2. case Rlt_bool_spec; [|discriminate]. intros P1 _. case Rlt_bool_spec; [|discriminate]. intros P2 _. auto. }
    destruct (Rlt_bool x0 0 && Rlt_bool x1 0) eqn:Q.
    { right. split; [reflexivity|]. apply andb_prop in Q as [P1 P2]. revert P1 P2. case Rlt_bool_spec; [|discriminate]. intros P1 _. case Rlt_bool_spec; [|discriminate]. intros P2 _. auto. }
    assert (NX := crossing_value D YB). set (x := o_add _ _) in *. assert (CB := NC D). assert (FX := proj1 NX). destruct NX as (_ & HX). apply Rabs_le_inv in HX. destruct (az_near prec emax U20 E20) as (FA & AZ). apply Rabs_le_inv in AZ. destruct (F_cst0 prec emax) as [F0 V0].
    rewrite is_zero_F by (assumption || lra). rewrite lt_F by assumption. rewrite V0.
    destruct (Rlt_le_dec 0 c) as [C0|C0]; [rewrite (Rabs_pos_eq c) in CB by lra|rewrite (Rabs_left1 c) in CB by lra].
    + rewrite Rle_bool_false by (rewrite Rabs_pos_eq; lra). rewrite Rlt_bool_true by lra. left. auto.
    + rewrite Rle_bool_false by (rewrite Rabs_left1; lra). rewrite Rlt_bool_false by lra. right. split; [reflexivity|]. lra.
  - assert (P : 0 < y0 * y1) by (destruct (Rtotal_order (y0 * y1) 0) as [Q|[Q|Q]]; [contradiction|apply Rmult_integral in Q; tauto|exact Q]).
    assert (Q : (0 < y0 /\ 0 < y1) \/ (y0 < 0 /\ y1 < 0)) by (destruct (Rtotal_order y0 0) as [R|[R|R]]; [right; split; nra|contradiction|left; split; nra]).
    destruct Q as [[Q1 Q2]|[Q1 Q2]]; [rewrite (Rlt_bool_true 0 y0), (Rlt_bool_true 0 y1) by assumption|rewrite (Rlt_bool_true y0 0), (Rlt_bool_true y1 0) by assumption]; cbn [andb]; rewrite ?orb_true_r; reflexivity.
Qed.
End Edge.
End FP.
