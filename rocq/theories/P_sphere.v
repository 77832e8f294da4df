(** The intersection of a ray and a sphere in machine arithmetic (C113). *)
From Coq Require Import ZArith Reals List Lia Lra Bool Psatz.
From Flocq Require Import Core BinarySingleNaN.
From Verif Require Import Ops M_scalar M_vec M_geom M_intersect Inst_F S_vec S_rnd S_order S_intersect S_hit S_raybox S_sphere P_ord P_ieee P_compare P_vec P_line P_fp P_fp4 P_hit P_hit2 P_bbox3 P_ft P_tbox P_limits P_raybox.
Import ListNotations.
Local Open Scope R_scope.

Section FP.
Variables prec emax : Z.
Context {Hprec : Prec_gt_0 prec} {Hmax : Prec_lt_emax prec emax}.
Notation fl := (binary_float prec emax).
Notation u := (unit_roundoff prec).
Notation eta := (underflow_error prec emax).
Notation Om := (bpow radix2 emax).
Hypothesis U20 : (20 <= prec)%Z.
Hypothesis E20 : (20 <= emax)%Z.

(** The square root of a number that is not negative is accurate. *)
Lemma sqrt_acc : forall x : fl, is_finite x = true -> 0 <= B2R x -> is_finite (o_sqrt x) = true /\ exists d, Rabs d <= u /\ B2R (o_sqrt x) = sqrt (B2R x) * (1 + d).
Proof.
  intros x F H. destruct (Rle_lt_or_eq_dec _ _ H) as [P|Z].
  - apply (sqrt_ok prec emax); [exact F|]. assert (L : bpow radix2 (3 - emax - prec) <= B2R x).
    { destruct x as [| | |s m e B]; cbn in P; try lra. cbn [B2R]. destruct s; [exfalso; assert (F2R (Float radix2 (Z.neg m) e) < 0) by (apply F2R_lt_0; reflexivity); unfold F2R in *; cbn in *; lra|].
      assert (LE : (3 - emax - prec <= e)%Z). { assert (B0 := B). apply andb_prop in B0 as [B1 B2]. apply Zeq_bool_eq in B1. unfold SpecFloat.fexp, SpecFloat.emin in B1. lia. }
      apply Rle_trans with (bpow radix2 e); [apply bpow_le; exact LE|]. unfold F2R. cbn [Fnum Fexp]. assert (1 <= IZR (Z.pos m)) by (apply IZR_le; lia). assert (G := bpow_gt_0 radix2 e). cbn. nra. }
    rewrite <- (sqrt_square (bpow radix2 _)) by apply bpow_ge_0. apply sqrt_le_1_alt. rewrite <- bpow_plus. eapply Rle_trans; [|exact L]. apply bpow_le. unfold SpecFloat.emin. assert (G := Hmax). unfold Prec_lt_emax in G. lia.
  - assert (E : o_sqrt x = x). { destruct x as [s| | |s m e B]; try discriminate; [reflexivity|]. exfalso. cbn [B2R] in Z. symmetry in Z. apply eq_0_F2R in Z. destruct s; discriminate. }
    rewrite E. split; [exact F|]. exists 0. split; [rewrite Rabs_R0; apply Rlt_le, u_pos|]. rewrite <- Z, sqrt_0. ring.
Qed.
Lemma half_near : forall (x : fl) a e A, near x a e -> Rabs a <= A -> (A + e) * 2 + eta < Om -> near (o_div x (cst 2)) (a / 2) (e / 2 + u * ((A + e) / 2) + eta).
Proof.
  intros x a e A N HA HO. destruct (u_small prec U20) as [U0 U1]. destruct (F_cst prec emax 2) as [F2 V2]. { change (Z.abs 2) with (2 ^ 1)%Z. apply Z.pow_le_mono_r; lia. } assert (VX := near_val _ _ _ _ _ _ N HA). destruct N as [Fx Hx]. assert (T0 := eta_pos prec emax).
  assert (S : Rabs (B2R x / B2R (cst 2 : fl)) <= (A + e) / 2). { rewrite V2. unfold Rdiv. rewrite Rabs_mult, (Rabs_pos_eq (/ 2)) by lra. lra. }
  assert (AE : 0 <= A + e) by (generalize (Rabs_pos (B2R x)); lra).
  destruct (div_ok prec emax x (cst 2) Fx) as (F & d & e2 & D & E2 & V); [rewrite V2; lra| |].
  { assert (Rabs (B2R x / B2R (cst 2 : fl)) * (1 + u) <= (A + e) / 2 * (1 + u)) by (apply Rmult_le_compat_r; lra). nra. }
  split; [exact F|]. rewrite V. set (q := B2R x / B2R (cst 2 : fl)) in *. replace (q * (1 + d) + e2 - a / 2) with ((q - a / 2) + d * q + e2) by ring.
  eapply Rle_trans; [apply Rabs_triang|]. apply Rplus_le_compat; [|exact E2]. eapply Rle_trans; [apply Rabs_triang|]. apply Rplus_le_compat.
  - unfold q. rewrite V2. replace (B2R x / 2 - a / 2) with ((B2R x - a) * / 2) by field. rewrite Rabs_mult, (Rabs_pos_eq (/ 2)) by lra. lra.
  - rewrite Rabs_mult. apply Rmult_le_compat; auto using Rabs_pos.
Qed.
Lemma near_neg : forall (x : fl) a e, near x a e -> near (o_neg x) (- a) e.
Proof. intros x a e [F H]. change (o_neg x) with (Bopp x). split; [rewrite is_finite_Bopp; exact F|]. rewrite B2R_Bopp. replace (- B2R x - - a) with (- (B2R x - a)) by ring. rewrite Rabs_Ropp. exact H. Qed.

Section Sphere.
Variables (o d c : list fl) (rad : fl) (M : R).
Hypothesis (Ho : within M o) (Hc : within M c) (Hd : nearly_unit d) (Fr : is_finite rad = true) (Br : Rabs (B2R rad) <= M) (M1 : 1 <= M) (MO : 4096 * (M * M) <= Om).
Let w := rsub (values o) (values c).
Let P := 2 * rdot w (values d).
Let Q := rdot w w - B2R rad * B2R rad.
Let diff := v_sub o c.
Let p := o_mul (cst 2) (v_dot diff d).
Let q := o_sub (v_squared_length diff) (o_mul rad rad).
Let disc := o_sub (o_mul p p) (o_mul (cst 4) q).
Lemma MM : M <= M * M. Proof. nra. Qed.
Lemma diff_near : Forall2 (fun x y => near x y (2 * u * M)) diff w /\ length diff = 3%nat /\ Forall (fun x => Rabs x <= 2 * M) w /\ length w = 3%nat.
Proof.
  destruct (u_small prec U20) as [U0 U1]. assert (OM := om_big emax E20). assert (MMM := MM).
  destruct (within3 prec emax M o Ho) as (x & y & z & -> & (F1 & F2 & F3) & B). destruct (within3 prec emax M c Hc) as (x' & y' & z' & -> & (F1' & F2' & F3') & B').
  assert (G : forall a b : fl, is_finite a = true -> is_finite b = true -> Rabs (B2R a) <= M -> Rabs (B2R b) <= M -> near (o_sub a b) (B2R a - B2R b) (2 * u * M) /\ Rabs (B2R a - B2R b) <= 2 * M).
  { intros a b Fa Fb Ba Bb. apply Rabs_le_inv in Ba, Bb. assert (S : Rabs (B2R a - B2R b) <= 2 * M) by (apply Rabs_le; lra). split; [|exact S].
    eapply near_le; [apply near_sub with (A := 2 * M) (e1 := 0) (e2 := 0); [now apply near_exact|now apply near_exact|exact S|nra]|lra]. }
  destruct B as (B1 & B2 & B3), B' as (B1' & B2' & B3'). destruct (G x x' F1 F1' B1 B1') as [N1 S1], (G y y' F2 F2' B2 B2') as [N2 S2], (G z z' F3 F3' B3 B3') as [N3 S3].
  split; [apply Forall2_cons; [exact N1|]; apply Forall2_cons; [exact N2|]; apply Forall2_cons; [exact N3|]; apply Forall2_nil|]. split; [reflexivity|]. split; [|reflexivity].
  apply Forall_cons; [exact S1|]; apply Forall_cons; [exact S2|]; apply Forall_cons; [exact S3|]; apply Forall_nil.
Qed.
Lemma dotw : forall a b A B, length a = 3%nat -> length b = 3%nat -> Forall (fun x => Rabs x <= A) a -> Forall (fun x => Rabs x <= B) b -> Rabs (rdot a b) <= 3 * (A * B).
Proof.
  intros a b A B La Lb FA FB. destruct a as [|a0 [|a1 [|a2 [|]]]]; try discriminate. destruct b as [|b0 [|b1 [|b2 [|]]]]; try discriminate.
  inversion FA as [|? ? A0 FA1]; subst. inversion FA1 as [|? ? A1 FA2]; subst. inversion FA2 as [|? ? A2 _]; subst.
  inversion FB as [|? ? B0 FB1]; subst. inversion FB1 as [|? ? B1 FB2]; subst. inversion FB2 as [|? ? B2 _]; subst.
  assert (G : forall x y, Rabs x <= A -> Rabs y <= B -> Rabs (x * y) <= A * B) by (intros x y Hx Hy; rewrite Rabs_mult; apply Rmult_le_compat; auto using Rabs_pos).
  assert (G0 := G _ _ A0 B0). assert (G1 := G _ _ A1 B1). assert (G2 := G _ _ A2 B2). apply Rabs_le_inv in G0, G1, G2. cbn [rdot]. apply Rabs_le. lra.
Qed.
Lemma p_near : near p P (67 * (u * M)) /\ Rabs P <= 1202 / 100 * M.
Proof.
  destruct (u_small prec U20) as [U0 U1]. assert (OM := om_big emax E20). assert (MMM := MM). assert (T0 := eta_pos prec emax). destruct (eta_small prec emax E20) as [_ TS].
  destruct diff_near as (N & L & B & L'). destruct (unit_facts prec emax U20 d Hd) as (BD & _ & _). assert (Hd' := Hd). destruct Hd' as (Ld & Fd & _). assert (UM : u <= u * M) by nra. assert (UM' : u * M <= / 1000000 * M) by nra.
  assert (D := dot3_near prec emax diff d w (values d) (2 * u * M) 0 (2 * M) (1001 / 1000) N (exact_all prec emax d Fd) L Ld B BD ltac:(nra) ltac:(lra) ltac:(lra) ltac:(lra) ltac:(lra)). 
  assert (LV : length (values d) = 3%nat) by (unfold values; now rewrite map_length).
  assert (S := dotw w (values d) _ _ L' LV B BD). 
  assert (D1 : near (v_dot diff d) (rdot w (values d)) (27 * (u * M))). { eapply near_le; [apply D|]; nra. }
  destruct (F_cst prec emax 2) as [F2 V2]. { change (Z.abs 2) with (2 ^ 1)%Z. apply Z.pow_le_mono_r; lia. }
  assert (C2 : near (cst 2 : fl) 2 0). { split; [exact F2|]. rewrite V2, Rminus_diag_eq, Rabs_R0 by reflexivity. lra. }
  assert (S' : Rabs (rdot w (values d)) <= 601 / 100 * M) by lra.
  split.
  - eapply near_le; [apply near_mul with (A := 2) (B := 601 / 100 * M); [exact C2|exact D1|rewrite Rabs_pos_eq; lra|exact S'|nra]|]. nra.
  - unfold P. rewrite Rabs_mult, (Rabs_pos_eq 2) by lra. lra.
Qed.
Lemma q_near : near q Q (80 * (u * (M * M))) /\ Rabs Q <= 13 * (M * M).
Proof.
  destruct (u_small prec U20) as [U0 U1]. assert (OM := om_big emax E20). assert (MMM := MM). assert (T0 := eta_pos prec emax). destruct (eta_small prec emax E20) as [_ TS].
  destruct diff_near as (N & L & B & L'). assert (UM : u <= u * (M * M)) by nra. assert (UM' : u * (M * M) <= / 1000000 * (M * M)) by nra.
  assert (G : (2 * M + 2 * u * M) * (2 * M + 2 * u * M) = 4 * (M * M) * ((1 + u) * (1 + u))) by ring. assert (G1 : (1 + u) * (1 + u) <= 1001 / 1000) by nra.
  assert (G2 : (2 * M + 2 * u * M) * (2 * M + 2 * u * M) <= 4004 / 1000 * (M * M)) by nra.
  assert (D := dot3_near prec emax diff diff w w (2 * u * M) (2 * u * M) (2 * M) (2 * M) N N L L B B ltac:(nra) ltac:(nra) ltac:(lra) ltac:(lra) ltac:(lra) ltac:(nra)).
  assert (S := dotw w w _ _ L' L' B B). assert (W0 := rdot_nonneg w).
  assert (D1 : near (v_squared_length diff) (rdot w w) (65 * (u * (M * M)))). { eapply near_le; [exact D|]. replace (3 * (2 * M * (2 * u * M) + 2 * M * (2 * u * M) + 2 * u * M * (2 * u * M))) with (24 * (u * (M * M)) + 12 * (u * (u * (M * M)))) by ring. assert (u * (u * (M * M)) <= / 1000000 * (u * (M * M))) by nra. nra. }
  assert (RR : Rabs (B2R rad * B2R rad) <= M * M) by (rewrite Rabs_mult; apply Rmult_le_compat; auto using Rabs_pos).
  assert (D2 : near (o_mul rad rad) (B2R rad * B2R rad) (101 / 100 * (u * (M * M)))). { eapply near_le; [apply near_mul with (A := M) (B := M); [now apply near_exact|now apply near_exact|exact Br|exact Br|nra]|]. nra. }
  assert (S2 : Rabs Q <= 13 * (M * M)). { unfold Q. rewrite Rabs_pos_eq in S by exact W0. apply Rabs_le_inv in RR. apply Rabs_le. lra. }
  split; [|exact S2]. eapply near_le; [apply near_sub with (A := 13 * (M * M)); [exact D1|exact D2|exact S2|nra]|]. nra.
Qed.
Notation m2 := (M * M).
Lemma disc_near : near disc (B2R p * B2R p - 4 * B2R q) (395 * (u * m2)) /\ Rabs (B2R p) <= 1203 / 100 * M /\ Rabs (B2R q) <= 1301 / 100 * m2 /\ Rabs (B2R p * B2R p) <= 1448 / 10 * m2.
Proof.
  destruct (u_small prec U20) as [U0 U1]. assert (OM := om_big emax E20). assert (MMM := MM). assert (T0 := eta_pos prec emax). destruct (eta_small prec emax E20) as [_ TS].
  destruct p_near as [NP BP]. destruct q_near as [NQ BQ]. assert (UM : u * M <= / 1000000 * M) by nra. assert (UM2 : u * m2 <= / 1000000 * m2) by nra. assert (UU : u <= u * m2) by nra.
  assert (VP : Rabs (B2R p) <= 1203 / 100 * M) by (eapply Rle_trans; [exact (near_val _ _ _ _ _ _ NP BP)|lra]).
  assert (VQ : Rabs (B2R q) <= 1301 / 100 * m2) by (eapply Rle_trans; [exact (near_val _ _ _ _ _ _ NQ BQ)|lra]).
  assert (PP : Rabs (B2R p * B2R p) <= 1448 / 10 * m2). { rewrite Rabs_mult. apply Rle_trans with (1203 / 100 * M * (1203 / 100 * M)); [apply Rmult_le_compat; auto using Rabs_pos|]. nra. }
  destruct (F_cst prec emax 4) as [F4 V4]. { change (Z.abs 4) with (2 ^ 2)%Z. apply Z.pow_le_mono_r; lia. }
  assert (C4 : near (cst 4 : fl) 4 0). { split; [exact F4|]. rewrite V4, Rminus_diag_eq, Rabs_R0 by reflexivity. lra. }
  assert (D1 : near (o_mul p p) (B2R p * B2R p) (145 * (u * m2))). { eapply near_le; [apply near_mul with (A := 1203 / 100 * M) (B := 1203 / 100 * M); [apply near_exact, NP|apply near_exact, NP|exact VP|exact VP|nra]|]. nra. }
  assert (D2 : near (o_mul (cst 4) q) (4 * B2R q) (523 / 10 * (u * m2))). { eapply near_le; [apply near_mul with (A := 4) (B := 1301 / 100 * m2); [exact C4|apply near_exact, NQ|rewrite Rabs_pos_eq; lra|exact VQ|nra]|]. nra. }
  split; [|auto]. assert (S : Rabs (B2R p * B2R p - 4 * B2R q) <= 1969 / 10 * m2) by (apply Rabs_le_inv in PP, VQ; apply Rabs_le; lra).
  eapply near_le; [apply near_sub with (A := 1969 / 10 * m2); [exact D1|exact D2|exact S|nra]|]. nra.
Qed.
(** The exact excess is a polynomial in the distance. *)
Lemma excess_poly : forall t, excess (Ray o d) c rad t = t * t * rdot (values d) (values d) + P * t + Q.
Proof.
  intros t. unfold excess, rdist, rnorm. rewrite Rsqr_sqrt by apply rdot_nonneg. unfold P, Q, w, ray_at, ray_values, rpoint. cbn [ray_origin ray_dir]. unfold Rsqr.
  destruct (within3 prec emax M o Ho) as (x & y & z & -> & _). destruct (within3 prec emax M c Hc) as (x' & y' & z' & -> & _). destruct Hd as (Ld & _). destruct d as [|d0 [|d1 [|d2 [|]]]]; try discriminate Ld.
  unfold values, radd, rsub, rscale. cbn [map zip rdot]. ring.
Qed.
Lemma poly_near : forall t a b, 0 <= t <= 16 * M -> Rabs (a - P) <= 121 * (u * M) -> Rabs (b - Q) <= 1000 * (u * m2) -> Rabs (t * t + a * t + b - excess (Ray o d) c rad t) <= sphere_error prec M.
Proof.
  intros t a b Ht Ha Hb. destruct (u_small prec U20) as [U0 U1]. destruct (unit_facts prec emax U20 d Hd) as (_ & D & _). rewrite excess_poly. unfold sphere_error.
  replace (t * t + a * t + b - (t * t * rdot (values d) (values d) + P * t + Q)) with (- (t * t * (rdot (values d) (values d) - 1)) + (a - P) * t + (b - Q)) by ring.
  assert (TT : t * t <= 256 * m2) by nra. assert (T2 : 0 <= t * t) by nra.
  assert (G1 : Rabs (t * t * (rdot (values d) (values d) - 1)) <= 256 * m2 * (33 * u)). { rewrite Rabs_mult, (Rabs_pos_eq (t * t)) by exact T2. apply Rmult_le_compat; auto using Rabs_pos. }
  assert (G2 : Rabs ((a - P) * t) <= 121 * (u * M) * (16 * M)). { rewrite Rabs_mult, (Rabs_pos_eq t) by lra. apply Rmult_le_compat; auto using Rabs_pos; lra. }
  apply Rabs_le_inv in G1, G2, Hb. assert (0 <= u * m2) by nra. apply Rabs_le. split; lra.
Qed.
(** The two computed distances are the roots of a polynomial close to the exact one. *)
Let sq := o_sqrt disc.
Let t0 := o_div (o_add (o_neg p) sq) (cst 2).
Let t1 := o_div (o_sub (o_neg p) sq) (cst 2).
Lemma roots : 0 <= B2R disc -> is_finite t0 = true /\ is_finite t1 = true /\ Rabs (B2R t0) <= 14 * M /\ Rabs (B2R t1) <= 14 * M
  /\ forall t, 0 <= t <= 16 * M -> Rabs ((t - B2R t0) * (t - B2R t1) - excess (Ray o d) c rad t) <= sphere_error prec M.
Proof.
  intros D0. destruct (u_small prec U20) as [U0 U1]. assert (OM := om_big emax E20). assert (MMM := MM). assert (T0 := eta_pos prec emax). destruct (eta_small prec emax E20) as [_ TS].
  destruct p_near as [NP BP]. destruct q_near as [NQ BQ]. destruct disc_near as (ND & VP & VQ & PP). assert (UM : u * M <= / 1000000 * M) by nra. assert (UM2 : u * m2 <= / 1000000 * m2) by nra. assert (UU : u <= u * M) by nra. assert (UMM : 0 <= u * m2) by nra.
  assert (HD : B2R disc <= 198 * m2). { destruct ND as [_ H]. apply Rabs_le_inv in H, PP, VQ. lra. }
  destruct (sqrt_acc disc (proj1 ND) D0) as (FS & ds & DS & VS). fold sq in FS, VS. assert (SS : sqrt (B2R disc) * sqrt (B2R disc) = B2R disc) by (apply sqrt_sqrt; exact D0). assert (S0 := sqrt_pos (B2R disc)).
  set (x := sqrt (B2R disc)) in *. assert (XB : x <= 1408 / 100 * M). { apply Rsqr_incr_0_var; [|lra]. unfold Rsqr. rewrite SS. nra. }
  apply Rabs_le_inv in DS. assert (SB : Rabs (B2R sq) <= 1409 / 100 * M). { rewrite VS, Rabs_mult, (Rabs_pos_eq x) by exact S0. apply Rle_trans with (1408 / 100 * M * (1 + u)); [|nra]. apply Rmult_le_compat; auto using Rabs_pos. apply Rabs_le. lra. }
  assert (S2 : Rabs (B2R sq * B2R sq - B2R disc) <= 398 * (u * m2)).
  { rewrite VS. replace (x * (1 + ds) * (x * (1 + ds)) - B2R disc) with (x * x * (2 * ds + ds * ds)) by (rewrite <- SS; ring). rewrite SS, Rabs_mult, (Rabs_pos_eq (B2R disc)) by exact D0.
    apply Rle_trans with (198 * m2 * (201 / 100 * u)); [|nra]. apply Rmult_le_compat; auto using Rabs_pos. apply Rabs_le. split; nra. }
  assert (NN := near_neg p (B2R p) 0 (near_exact prec emax p (proj1 NP))). assert (NS := near_exact prec emax sq FS).
  apply Rabs_le_inv in VP as VP', SB as SB'.
  assert (A1 : Rabs (- B2R p + B2R sq) <= 2613 / 100 * M) by (apply Rabs_le; lra). assert (A2 : Rabs (- B2R p - B2R sq) <= 2613 / 100 * M) by (apply Rabs_le; lra).
  assert (N1 : near (o_add (o_neg p) sq) (- B2R p + B2R sq) (2613 / 100 * (u * M))). { eapply near_le; [apply near_add with (A := 2613 / 100 * M); [exact NN|exact NS|exact A1|nra]|]. lra. }
  assert (N2 : near (o_sub (o_neg p) sq) (- B2R p - B2R sq) (2613 / 100 * (u * M))). { eapply near_le; [apply near_sub with (A := 2613 / 100 * M); [exact NN|exact NS|exact A2|nra]|]. lra. }
  assert (H1 : near t0 ((- B2R p + B2R sq) / 2) (27 * (u * M))). { eapply near_le; [apply (half_near _ _ _ _ N1 A1); nra|]. nra. }
  assert (H2 : near t1 ((- B2R p - B2R sq) / 2) (27 * (u * M))). { eapply near_le; [apply (half_near _ _ _ _ N2 A2); nra|]. nra. }
  destruct H1 as [F0 H1], H2 as [F1 H2]. split; [exact F0|]. split; [exact F1|]. set (a0 := (- B2R p + B2R sq) / 2) in *. set (a1 := (- B2R p - B2R sq) / 2) in *.
  assert (B0 : Rabs a0 <= 1307 / 100 * M) by (unfold a0; apply Rabs_le; lra). assert (B1 : Rabs a1 <= 1307 / 100 * M) by (unfold a1; apply Rabs_le; lra).
  apply Rabs_le_inv in H1 as H1', H2 as H2', B0 as B0', B1 as B1'. split; [apply Rabs_le; lra|]. split; [apply Rabs_le; lra|].
  intros t Ht. replace ((t - B2R t0) * (t - B2R t1)) with (t * t + (- (B2R t0 + B2R t1)) * t + B2R t0 * B2R t1) by ring. apply poly_near; [exact Ht| |].
  - destruct NP as [_ NP]. apply Rabs_le_inv in NP. assert (a0 + a1 = - B2R p) by (unfold a0, a1; field). apply Rabs_le. lra.
  - assert (PE := prod_error _ _ _ _ _ _ _ _ H1 H2 B0 B1). assert (EA : a0 * a1 = (B2R p * B2R p - B2R sq * B2R sq) / 4) by (unfold a0, a1; field). rewrite EA in PE.
    destruct ND as [_ ND]. destruct NQ as [_ NQ]. apply Rabs_le_inv in PE, ND, NQ, S2. assert (W : 1307 / 100 * M * (27 * (u * M)) + 1307 / 100 * M * (27 * (u * M)) + 27 * (u * M) * (27 * (u * M)) <= 706 * (u * m2)). { replace (27 * (u * M) * (27 * (u * M))) with (729 * (u * (u * m2))) by ring. assert (u * (u * m2) <= / 1000000 * (u * m2)) by (apply Rmult_le_compat_r; [apply Rmult_le_pos; lra|lra]). nra. }
    apply Rabs_le. split; lra.
Qed.
Lemma missed : B2R disc < 0 -> forall t, 0 <= t <= 16 * M -> - sphere_error prec M <= excess (Ray o d) c rad t.
Proof.
  intros D0 t Ht. destruct (u_small prec U20) as [U0 U1]. destruct p_near as [[_ NP] BP]. destruct q_near as [[_ NQ] BQ]. destruct disc_near as ((_ & ND) & VP & VQ & PP). destruct (unit_facts prec emax U20 d Hd) as (_ & D & _).
  assert (UMM : 0 <= u * m2) by nra. apply Rabs_le_inv in ND, NQ, D, NP. rewrite excess_poly. unfold sphere_error.
  assert (TT : 0 <= t * t <= 256 * m2) by nra. assert (G1 : - (256 * m2 * (33 * u)) <= t * t * (rdot (values d) (values d) - 1)) by nra.
  assert (G2 : - (67 * (u * M) * (16 * M)) <= (P - B2R p) * t). { assert (- (67 * (u * M)) * t <= (P - B2R p) * t) by (apply Rmult_le_compat_r; lra). assert (67 * (u * M) * t <= 67 * (u * M) * (16 * M)) by (apply Rmult_le_compat_l; nra). lra. }
  assert (G3 : 0 <= (t + B2R p / 2) * (t + B2R p / 2)) by (apply Rle_0_sqr). nra.
Qed.
(** The result *)
Lemma sphere : let r := Ray o d in let s := intersect_ray_sphere r c rad in let E := sphere_error prec M in
  (s = o_nan /\ forall t, 0 <= t <= 16 * M -> - E <= excess r c rad t)
  \/ is_finite s = true /\ 0 <= B2R s <= 14 * M /\ Rabs (excess r c rad (B2R s)) <= E
     /\ ((forall t, 0 <= t <= B2R s -> - E <= excess r c rad t) \/ (forall t, 0 <= t <= B2R s -> excess r c rad t <= E)).
Proof.
  cbv zeta. unfold intersect_ray_sphere. cbn [ray_origin ray_dir]. change (v_sub o c) with diff. cbv zeta. change (o_mul (cst 2) (v_dot diff d)) with p. change (o_sub (v_squared_length diff) (o_mul rad rad)) with q. change (o_sub (o_mul p p) (o_mul (cst 4) q)) with disc. change (o_sqrt disc) with sq.
  change (o_div (o_add (o_neg p) sq) (cst 2)) with t0. change (o_div (o_sub (o_neg p) sq) (cst 2)) with t1.
  destruct (F_cst0 prec emax) as [F0 V0]. destruct disc_near as ((FD & _) & _). rewrite (P_raybox.lt_fin prec emax), (key_fin prec emax), V0 by auto using (fin_num' prec emax).
  destruct (Rlt_bool_spec (B2R disc) 0) as [D0|D0]; [left; split; [reflexivity|]; exact (missed D0)|].
  destruct (roots D0) as (G0 & G1 & B0 & B1 & R). rewrite !(P_raybox.lt_fin prec emax), !(key_fin prec emax), V0 by auto using (fin_num' prec emax). apply Rabs_le_inv in B0, B1.
  assert (MIN : forall s : fl, (s = t0 \/ s = t1) -> 0 <= B2R s -> Rabs (excess (Ray o d) c rad (B2R s)) <= sphere_error prec M).
  { intros s Hs Ps. assert (HR : 0 <= B2R s <= 16 * M) by (destruct Hs as [->| ->]; lra). specialize (R _ HR). rewrite <- Rabs_Ropp. replace (- excess (Ray o d) c rad (B2R s)) with ((B2R s - B2R t0) * (B2R s - B2R t1) - excess (Ray o d) c rad (B2R s)); [exact R|]. destruct Hs as [->| ->]; ring. }
  destruct (Rlt_bool_spec (B2R t0) 0) as [L0|L0], (Rlt_bool_spec (B2R t1) 0) as [L1|L1]; cbn [andb].
  1:{ left. split; [reflexivity|]. intros t Ht. specialize (R t Ht). apply Rabs_le_inv in R. nra. }
  all: right.
  - rewrite Rlt_bool_false by lra. cbn [andb]. unfold sc_max. rewrite (P_raybox.lt_fin prec emax), (key_fin prec emax) by auto using (fin_num' prec emax). rewrite Rlt_bool_false by lra.
    split; [exact G1|]. split; [lra|]. split; [apply MIN; auto|]. right. intros t Ht. specialize (R t ltac:(lra)). apply Rabs_le_inv in R. nra.
  - rewrite (Rlt_bool_false 0 (B2R t1)) by lra. rewrite andb_false_r. unfold sc_max. rewrite (P_raybox.lt_fin prec emax), (key_fin prec emax) by auto using (fin_num' prec emax). rewrite Rlt_bool_true by lra.
    split; [exact G0|]. split; [lra|]. split; [apply MIN; auto|]. right. intros t Ht. specialize (R t ltac:(lra)). apply Rabs_le_inv in R. nra.
  - destruct (Rlt_bool_spec 0 (B2R t0)) as [P0|P0], (Rlt_bool_spec 0 (B2R t1)) as [P1|P1]; cbn [andb]; unfold sc_min, sc_max; rewrite (P_raybox.lt_fin prec emax), (key_fin prec emax) by auto using (fin_num' prec emax).
    + destruct (Rlt_bool_spec (B2R t0) (B2R t1)) as [L|L].
      * split; [exact G0|]. split; [lra|]. split; [apply MIN; auto|]. left. intros t Ht. specialize (R t ltac:(lra)). apply Rabs_le_inv in R. nra.
      * split; [exact G1|]. split; [lra|]. split; [apply MIN; auto|]. left. intros t Ht. specialize (R t ltac:(lra)). apply Rabs_le_inv in R. nra.
    + destruct (Rlt_bool_spec (B2R t1) (B2R t0)) as [L|L].
      * split; [exact G0|]. split; [lra|]. split; [apply MIN; auto|]. right. intros t Ht. specialize (R t ltac:(lra)). apply Rabs_le_inv in R. nra.
      * split; [exact G1|]. split; [lra|]. split; [apply MIN; auto|]. right. intros t Ht. specialize (R t ltac:(lra)). apply Rabs_le_inv in R. nra.
    + destruct (Rlt_bool_spec (B2R t1) (B2R t0)) as [L|L].
      * split; [exact G0|]. split; [lra|]. split; [apply MIN; auto|]. right. intros t Ht. specialize (R t ltac:(lra)). apply Rabs_le_inv in R. nra.
      * split; [exact G1|]. split; [lra|]. split; [apply MIN; auto|]. right. intros t Ht. specialize (R t ltac:(lra)). apply Rabs_le_inv in R. nra.
    + destruct (Rlt_bool_spec (B2R t1) (B2R t0)) as [L|L].
      * split; [exact G0|]. split; [lra|]. split; [apply MIN; auto|]. right. intros t Ht. specialize (R t ltac:(lra)). apply Rabs_le_inv in R. nra.
      * split; [exact G1|]. split; [lra|]. split; [apply MIN; auto|]. right. intros t Ht. specialize (R t ltac:(lra)). apply Rabs_le_inv in R. nra.
Qed.
End Sphere.
End FP.
