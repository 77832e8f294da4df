(** Distances of points to segments in machine arithmetic (C117). *)
From Coq Require Import ZArith Reals List Lia Lra Bool Psatz.
From Flocq Require Import Core BinarySingleNaN.
From Verif Require Import Ops M_scalar M_vec M_geom M_dist Inst_F S_vec S_geom S_dist S_rnd S_hit S_raybox S_distf P_ieee P_vec P_line P_seg P_dist P_fp P_fp3 P_fp4 P_fp7 P_hit P_hit2 P_ft P_tri2 P_tbox P_sphere P_raytri P_polyf P_distf.
Import ListNotations.
Local Open Scope R_scope.

Section FP.
Variables prec emax : Z.
Context {Hprec : Prec_gt_0 prec} {Hmax : Prec_lt_emax prec emax}.
Notation fl := (binary_float prec emax).
Notation u := (unit_roundoff prec).
Notation eta := (underflow_error prec emax).
Notation Om := (bpow radix2 emax).
Hypothesis U20 : (20 <= prec)%Z.
Hypothesis E20 : (20 <= emax)%Z.

(** Dividing by the computed length *)
Lemma relative_direction : forall (r L : R) (v n : list fl) V, 0 < L -> Rabs (r - L) <= u * L -> Forall2 (fun x y => Rabs (y - x) <= u * Rabs x + 0) V (values v)
  -> Forall2 (fun x y : fl => Rabs (B2R y - B2R x / r) <= 8 * u * (Rabs (B2R x) / r) + eta) v n -> Forall2 (fun x y => Rabs (x - y) <= 101 / 10 * (u * Rabs y) + / 1000 * u) (values n) (rscale (/ L) V).
Proof.
  intros r L v n V L0 RC H NV. destruct (u_small prec U20) as [U0 U1]. destruct (eta_small prec emax E20) as [T0 TS]. apply Rabs_le_inv in RC. assert (UL : u * L <= / 1000000 * L) by (apply Rmult_le_compat_r; lra). revert H NV.
  assert (IR : 0 < / L) by (apply Rinv_0_lt_compat; lra). assert (R0 : 0 < r) by lra. assert (IRR : 0 < / r) by (apply Rinv_0_lt_compat; lra).
  assert (RL : L / r <= 1001 / 1000). { apply Rmult_le_reg_r with r; [exact R0|]. unfold Rdiv. rewrite Rmult_assoc, Rinv_l by lra. lra. }
  assert (RL0 : 0 < L / r) by (apply Rmult_lt_0_compat; assumption).
  revert V n. rename v into v0. induction v0 as [|x v0 IH]; intros w n H NV; inversion NV as [|? y ? n' NX NR]; subst; cbn [map] in H; inversion H as [|X ? W ? HX HR]; subst; cbn [map]; [apply Forall2_nil|].
  apply Forall2_cons; [|apply IH; assumption]. clear IH HR NR H NV. set (xv := B2R x) in *. set (yv := B2R y) in *. rewrite Rplus_0_r in HX.
  set (z := / L * X). assert (Z0 := Rabs_pos z). assert (XZ : Rabs X = L * Rabs z) by (unfold z; rewrite Rabs_mult, (Rabs_pos_eq (/ L)) by lra; field; lra).
  assert (K1 : Rabs ((xv - X) / r) <= 1001 / 1000 * (u * Rabs z)). { unfold Rdiv. rewrite Rabs_mult, (Rabs_pos_eq (/ r)) by lra. apply Rle_trans with (u * Rabs X * / r); [apply Rmult_le_compat_r; lra|]. rewrite XZ. replace (u * (L * Rabs z) * / r) with (L / r * (u * Rabs z)) by (unfold Rdiv; ring). apply Rmult_le_compat_r; [apply Rmult_le_pos; lra|exact RL]. }
  assert (K2 : Rabs (X / r - z) <= 1001 / 1000 * (u * Rabs z)). { replace (X / r - z) with (z * ((L - r) / r)) by (unfold z; field; lra). rewrite Rabs_mult. replace (1001 / 1000 * (u * Rabs z)) with (Rabs z * (1001 / 1000 * u)) by ring. apply Rmult_le_compat_l; [exact Z0|]. unfold Rdiv. rewrite Rabs_mult, (Rabs_pos_eq (/ r)) by lra. apply Rle_trans with (u * L * / r); [apply Rmult_le_compat_r; [lra|apply Rabs_le; lra]|]. replace (u * L * / r) with (u * (L / r)) by (unfold Rdiv; ring). rewrite (Rmult_comm (1001 / 1000)). apply Rmult_le_compat_l; lra. }
  assert (K3 : Rabs xv / r <= 1002 / 1000 * Rabs z). { assert (K : Rabs xv <= (1 + u) * Rabs X) by (replace xv with (X + (xv - X)) by ring; eapply Rle_trans; [apply Rabs_triang|lra]). apply Rle_trans with ((1 + u) * Rabs X * / r); [apply Rmult_le_compat_r; lra|]. rewrite XZ. replace ((1 + u) * (L * Rabs z) * / r) with (L / r * (1 + u) * Rabs z) by (unfold Rdiv; ring). apply Rmult_le_compat_r; [exact Z0|]. apply Rle_trans with (1001 / 1000 * (1 + u)); [apply Rmult_le_compat_r; lra|lra]. }
  assert (K4 : 8 * u * (Rabs xv / r) <= 8 * u * (1002 / 1000 * Rabs z)) by (apply Rmult_le_compat_l; lra).
  replace (yv - z) with ((yv - xv / r) + ((xv - X) / r + (X / r - z))) by (unfold Rdiv; ring). eapply Rle_trans; [apply Rabs_triang|]. assert (K5 := Rabs_triang ((xv - X) / r) (X / r - z)). assert (0 <= u * Rabs z) by (apply Rmult_le_pos; lra). lra.
Qed.
Section Seg.
Variables (a b p : list fl) (M : R).
Hypothesis (Wa : within M a) (Wb : within M b) (Wp : within M p) (M1 : 1 <= M) (MO : 1000 * (M * M) <= Om).
Let A := values a. Let B := values b. Let P := values p.
Let V := rsub B A.
Let L := rnorm V.
Hypothesis HL : bpow radix2 (5 - emax / 2) <= L.
Let v := v_sub b a.
Let e := v_normalize v.
Let E := values e.
Let D := rscale (/ L) V.
Lemma seg_lengths : length A = 3%nat /\ length B = 3%nat /\ length P = 3%nat /\ length V = 3%nat /\ length D = 3%nat /\ length v = 3%nat.
Proof.
  assert (LA : length A = 3%nat) by (unfold A, values; rewrite map_length; apply Wa). assert (LB : length B = 3%nat) by (unfold B, values; rewrite map_length; apply Wb). assert (LP : length P = 3%nat) by (unfold P, values; rewrite map_length; apply Wp).
  assert (LV : length V = 3%nat) by (unfold V; len). repeat (split; [assumption|]). split; [unfold D; len|]. unfold v. destruct Wa as (La & _), Wb as (Lb & _). destruct a as [|? [|? [|? [|]]]]; try discriminate La. destruct b as [|? [|? [|? [|]]]]; try discriminate Lb. reflexivity.
Qed.
Lemma L_bounds : 0 < L <= 347 / 100 * M /\ L <= bpow radix2 (emax / 2 - 2).
Proof.
  assert (L0 : 0 < L) by (generalize (bpow_gt_0 radix2 (5 - emax / 2)); lra). assert (MM : 0 < M * M) by (apply Rmult_lt_0_compat; lra).
  assert (Q : L * L <= 12 * (M * M)) by (unfold L; rewrite rnorm_sq; exact (square_diff prec emax a a b M Wa Wb)).
  split; [split; [exact L0|]; rewrite <- (Rabs_pos_eq L) by lra; apply (root_bound M M1); lra|].
  apply Rnot_lt_le. intros K. set (k := bpow radix2 (emax / 2 - 2)) in *. assert (K0 : 0 < k) by apply bpow_gt_0. assert (KK : k * k < L * L) by (apply Rmult_le_0_lt_compat; lra).
  assert (KB : Om <= 32 * (k * k)). { unfold k. rewrite <- bpow_plus. change 32 with (bpow radix2 5). rewrite <- bpow_plus. apply bpow_le. assert (G := Z_div_mod_eq_full emax 2). assert (G2 := Z.mod_pos_bound emax 2 ltac:(lia)). lia. }
  lra.
Qed.
Lemma D_unit : rdot D D = 1 /\ V = rscale L D /\ Forall (fun x => Rabs x <= 1) D.
Proof.
  destruct L_bounds as ((L0 & _) & _). assert (Q : L * L = rdot V V) by apply rnorm_sq. assert (U : rdot D D = 1) by (unfold D; rewrite rdot_scale_l, rdot_scale_r, <- Q; field; lra).
  split; [exact U|]. split; [unfold D; rewrite rscale_mul, Rinv_r, rscale_1 by lra; reflexivity|]. apply Forall_forall. intros x Hx. apply Rle_trans with (rnorm D); [now apply component_le_norm|]. unfold rnorm. rewrite U, sqrt_1. lra.
Qed.
Lemma v_relative : all_finite v /\ Forall2 (fun x y => Rabs (y - x) <= u * Rabs x + 0) V (values v).
Proof.
  destruct (size_M prec emax U20 E20 M M1 MO) as (UM0 & UE & MB & UM). destruct (u_small prec U20) as [U0 U1]. unfold V, v, A, B.
  destruct (within3 prec emax M a Wa) as (o0 & o1 & o2 & -> & (F1 & F2 & F3) & (B1 & B2 & B3)). destruct (within3 prec emax M b Wb) as (p0 & p1 & p2 & -> & (F4 & F5 & F6) & (B4 & B5 & B6)).
  assert (G : forall x y : fl, is_finite x = true -> is_finite y = true -> Rabs (B2R x) <= M -> Rabs (B2R y) <= M -> near (o_sub x y) (B2R x - B2R y) (u * Rabs (B2R x - B2R y) + 0)).
  { intros x y Fx Fy Bx By. eapply near_le; [apply near_sub with (e1 := 0) (e2 := 0) (A := Rabs (B2R x - B2R y)); auto using near_exact; [lra|]|right; ring].
    assert (Rabs (B2R x - B2R y) <= 2 * M) by (apply Rabs_le_inv in Bx, By; apply Rabs_le; lra). apply Rle_lt_trans with (2 * M * 2); [|lra]. apply Rmult_le_compat; try lra. generalize (Rabs_pos (B2R x - B2R y)); lra. }
  destruct (G p0 o0) as (G0 & H0); auto. destruct (G p1 o1) as (G1 & H1); auto. destruct (G p2 o2) as (G2 & H2); auto. cbn [v_sub map2 values map rsub zip].
  split; [repeat (apply Forall_cons; [assumption|]); apply Forall_nil|]. repeat (apply Forall2_cons; [assumption|]). apply Forall2_nil.
Qed.
Lemma r_close : Rabs (rnorm (values v) - L) <= u * L.
Proof. destruct (u_small prec U20) as [U0 U1]. destruct v_relative as (_ & H). assert (G := norm_close V (values v) u 0 ltac:(lra) ltac:(lra) H). fold L in G. lra. Qed.
Lemma e_facts : nearly_unit e /\ Forall2 (fun x y => Rabs (x - y) <= 101 / 10 * (u * Rabs y) + / 1000 * u) E D.
Proof.
  destruct (u_small prec U20) as [U0 U1]. destruct (eta_small prec emax E20) as [T0 TS]. destruct L_bounds as ((L0 & LM) & LO). assert (RC := r_close). destruct v_relative as (Fv & H). destruct seg_lengths as (LA & LB & LP & LV & LD & Lv). set (r := rnorm (values v)) in *. apply Rabs_le_inv in RC.
  assert (UL : u * L <= / 1000000 * L) by (apply Rmult_le_compat_r; lra).
  assert (MOD : moderate emax (values v)).
  { unfold moderate. fold r. split.
    - apply Rle_trans with (/ 2 * L); [|lra]. apply Rle_trans with (/ 2 * bpow radix2 (5 - emax / 2)); [|apply Rmult_le_compat_l; lra]. change (/ 2) with (bpow radix2 (-1)). rewrite <- bpow_plus. apply bpow_le. lia.
    - apply Rle_trans with (2 * L); [lra|]. apply Rle_trans with (2 * bpow radix2 (emax / 2 - 2)); [apply Rmult_le_compat_l; lra|]. change 2 with (bpow radix2 1) at 1. rewrite <- bpow_plus. apply bpow_le. lia. }
  destruct (unit_of prec emax U20 v Lv Fv MOD) as (NU & NV). fold e r in NU, NV. split; [exact NU|]. exact (relative_direction r L v e V L0 ltac:(apply Rabs_le; lra) H NV).
Qed.
Lemma e_norm : rdot (rsub E D) (rsub E D) <= 11 * u * (11 * u).
Proof.
  destruct (u_small prec U20) as [U0 U1]. destruct e_facts as (_ & H). destruct D_unit as (U & _). destruct seg_lengths as (_ & _ & _ & _ & LD & _). clearbody D E. destruct D as [|d0 [|d1 [|d2 [|]]]]; try discriminate LD.
  inversion H as [|e0 ? E1 ? H0 T1]; subst. inversion T1 as [|e1 ? E2 ? H1 T2]; subst. inversion T2 as [|e2 ? E3 ? H2 T3]; subst. inversion T3; subst. cbn [rsub zip rdot] in U |- *.
  assert (G : forall x y, Rabs (x - y) <= 101 / 10 * (u * Rabs y) + / 1000 * u -> (x - y) * (x - y) <= u * u * (113 * (y * y) + / 1000)).
  { intros x y Hx. rewrite <- (Rabs_pos_eq ((x - y) * (x - y))), Rabs_mult by apply Rle_0_sqr. apply Rle_trans with ((101 / 10 * (u * Rabs y) + / 1000 * u) * (101 / 10 * (u * Rabs y) + / 1000 * u)); [apply Rmult_le_compat; auto using Rabs_pos|].
    assert (YY : y * y = Rabs y * Rabs y) by (rewrite <- Rabs_mult, Rabs_pos_eq; [reflexivity|apply Rle_0_sqr]). rewrite YY. set (k := Rabs y). replace ((101 / 10 * (u * k) + / 1000 * u) * (101 / 10 * (u * k) + / 1000 * u)) with (u * u * ((101 / 10 * k + / 1000) * (101 / 10 * k + / 1000))) by ring. apply Rmult_le_compat_l; [apply Rle_0_sqr|].
    assert (0 <= (3 * k - / 200) * (3 * k - / 200)) by apply Rle_0_sqr. assert (0 <= k) by apply Rabs_pos. assert (0 <= k * k) by apply Rle_0_sqr. lra. }
  assert (G0 := G _ _ H0). assert (G1 := G _ _ H1). assert (G2 := G _ _ H2). assert (UU : 0 < u * u) by (apply Rmult_lt_0_compat; lra). apply Rle_trans with (u * u * (113 * (d0 * d0 + (d1 * d1 + (d2 * d2 + 0))) + 3 / 1000)); [lra|]. rewrite U. lra.
Qed.
Let S := rdot (rsub P A) D.
Let len := v_length v.
Let pos := sc_min (sc_max (cst 0) [v_dot (v_sub p a) e]) [len].
Let t := Rmin (Rmax 0 S) L.
Lemma length_near : near len L (21 * (u * M)) /\ 0 <= B2R len.
Proof.
  destruct (u_small prec U20) as [U0 U1]. destruct L_bounds as ((L0 & LM) & LO). destruct v_relative as (Fv & H).
  assert (N : near len L (6 * u * L)). { replace 6 with (INR (length b + 3)) by (replace (length b) with 3%nat by (symmetry; apply Wb); simpl; ring). apply (distance_ok prec emax b a); [rewrite (proj1 Wa); apply Wb|apply Wb|apply Wa|rewrite (proj1 Wb); apply few3; assumption|fold A B V L; lra]. }
  destruct N as (F & N). assert (UL : u * L <= u * (347 / 100 * M)) by (apply Rmult_le_compat_l; lra). assert (UM0 : 0 < u * M) by (apply Rmult_lt_0_compat; lra). split; [split; [exact F|lra]|]. apply Rabs_le_inv in N. assert (u * L <= / 1000000 * L) by (apply Rmult_le_compat_r; lra). lra.
Qed.
Lemma S_bound : Rabs (rdot (rsub P A) E - S) <= 382 / 10 * (u * M) /\ rdot (rsub P A) (rsub P A) <= 12 * (M * M).
Proof.
  destruct (u_small prec U20) as [U0 U1]. assert (F : rdot (rsub P A) (rsub P A) <= 12 * (M * M)) by exact (square_diff prec emax a a p M Wa Wp). split; [|exact F].
  destruct seg_lengths as (LA & LB & LP & LV & LD & Lv). destruct e_facts as ((Le & _) & _). assert (LE : length E = 3%nat) by (unfold E, values; rewrite map_length; exact Le).
  unfold S. rewrite <- rdot_sub_r by (unfold rsub; rewrite ?zip_length; lia). assert (C := cauchy_schwarz (rsub P A) (rsub E D) ltac:(unfold rsub; rewrite !zip_length; lia)). assert (Q := e_norm). set (z := rdot (rsub P A) (rsub E D)) in *. 
  assert (MM : 0 < M * M) by (apply Rmult_lt_0_compat; lra). assert (UU : 0 < u * u) by (apply Rmult_lt_0_compat; lra).
  assert (C2 : z * z <= 12 * (M * M) * (11 * u * (11 * u))) by (eapply Rle_trans; [exact C|apply Rmult_le_compat; auto using rdot_nonneg]).
  apply Rnot_lt_le. intros K. assert (UM0 : 0 < u * M) by (apply Rmult_lt_0_compat; lra). assert (K2 : 382 / 10 * (u * M) * (382 / 10 * (u * M)) < Rabs z * Rabs z) by (apply Rmult_le_0_lt_compat; lra). rewrite <- Rabs_mult, Rabs_pos_eq in K2 by apply Rle_0_sqr.
  replace (12 * (M * M) * (11 * u * (11 * u))) with (1452 * (u * M * (u * M))) in C2 by ring. assert (0 < u * M * (u * M)) by (apply Rmult_lt_0_compat; assumption). lra.
Qed.
Lemma seg_position : is_finite pos = true /\ 0 <= B2R pos <= 348 / 100 * M /\ 0 <= t <= 347 / 100 * M /\ Rabs (B2R pos - t) <= 683 / 10 * (u * M).
Proof.
  destruct (size_M prec emax U20 E20 M M1 MO) as (UM0 & UE & MB & UM). destruct (u_small prec U20) as [U0 U1]. destruct L_bounds as ((L0 & LM) & LO). destruct length_near as ((FL & NL) & NL0). destruct e_facts as (NU & _). destruct (F_cst0 prec emax) as [F0 V0]. destruct S_bound as (SB & _).
  destruct (scale_near prec emax U20 E20 a e p M Wa NU Wp M1 MO) as (FS & HS). fold A P E in HS. destruct (max_F prec emax _ _ F0 FS) as (FX & VX). destruct (min_F prec emax _ _ FX FL) as (FP & VP). fold pos in FP, VP. rewrite VX, V0 in VP.
  set (s := B2R (v_dot (v_sub p a) e)) in *. apply Rabs_le_inv in NL, HS, SB. split; [exact FP|]. rewrite VP. unfold t, Rmin, Rmax. destruct (Rle_dec 0 s), (Rle_dec 0 S); repeat match goal with |- context [Rle_dec ?x ?y] => destruct (Rle_dec x y) end; (split; [lra|split; [lra|apply Rabs_le; lra]]).
Qed.
Lemma seg_nearest : let s := Seg A B in seg_at s t = rpoint A D t /\ rdist B A = L /\ nearest (on_seg s) P (rpoint A D t) /\ rdist2 P (rpoint A D t) <= 12 * (M * M).
Proof.
  destruct L_bounds as ((L0 & LM) & LO). destruct D_unit as (U & VE & _). destruct seg_lengths as (LA & LB & LP & LV & LD & Lv). destruct S_bound as (_ & F). cbv zeta.
  assert (IS : is_segment 3 (Seg A B)) by (split; assumption). assert (UV : unit_vec 3 D) by (split; assumption). destruct (seg_at_ok (Seg A B) 3 D L t IS UV L0 VE) as (-> & RD). split; [reflexivity|]. split; [exact RD|].
  assert (SP := seg_points (Seg A B) 3 D L IS UV L0 VE). cbn [seg_start seg_end] in *. assert (T0 : 0 <= t <= L). { unfold t, Rmin, Rmax. destruct (Rle_dec 0 S), (Rle_dec _ L); lra. }
  assert (G : forall x, 0 <= x <= L -> rdist2 P (rpoint A D t) <= rdist2 P (rpoint A D x)).
  { intros x Hx. unfold rdist2. rewrite <- (proj_nearest A D P t), <- (proj_nearest A D P x) by congruence. fold S. assert (K := clamp_both S L x Hx). fold t in K. lra. }
  split; [split; [apply SP; eauto|]; intros q' Q; apply SP in Q as (x & Hx & ->); apply rdist_le; exact (G x Hx)|].
  eapply Rle_trans; [apply (G 0); lra|]. rewrite along by congruence. lra.
Qed.
Lemma seg_change : Rabs (rdist2 P (rpoint A E (B2R pos)) - rdist2 P (rpoint A D t)) <= 742 * (u * (M * M)).
Proof.
  destruct (size_M prec emax U20 E20 M M1 MO) as (UM0 & UE & MB & UM). destruct (u_small prec U20) as [U0 U1]. destruct seg_position as (FP & _ & T0 & PT). destruct seg_nearest as (_ & _ & _ & W). destruct e_facts as (NU & _). assert (Q := e_norm). destruct (unit_facts prec emax U20 e NU) as (_ & EN & _). fold E in EN.
  destruct seg_lengths as (LA & LB & LP & LV & LD & Lv). assert (LE : length E = 3%nat) by (unfold E, values; rewrite map_length; apply NU). apply Rabs_le_inv in EN.
  set (k := B2R pos - t) in *. set (w := rsub P (rpoint A D t)) in *. set (G := rsub E D) in *.
  assert (MM : 0 < M * M) by (apply Rmult_lt_0_compat; lra). assert (UMM : 0 < u * (M * M)) by (apply Rmult_lt_0_compat; lra). assert (U2 : 0 < u * M * (u * M)) by (apply Rmult_lt_0_compat; lra).
  assert (U2B : u * M * (u * M) <= / 1000000 * (u * (M * M))). { replace (u * M * (u * M)) with (u * (u * (M * M))) by ring. apply Rmult_le_compat_r; lra. }
  assert (LW : length w = 3%nat) by (unfold w, rpoint; len). assert (LG : length G = 3%nat) by (unfold G; len).
  assert (X : rsub P (rpoint A E (B2R pos)) = rsub w (radd (rscale k E) (rscale t G))) by (unfold w, G, k; clear - LA LP LD LE; clearbody A P D E; vext; ring).
  unfold rdist2. fold w. rewrite X. change (rdot w w <= 12 * (M * M)) in W. rewrite rdot_sub_l, !rdot_sub_r, (rdot_comm (radd _ _) w) by len. set (z := radd (rscale k E) (rscale t G)) in *.
  assert (WZ : rdot w z = k * rdot w E + t * rdot w G) by (unfold z; rewrite rdot_add_r, !rdot_scale_r by len; reflexivity).
  assert (ZZ : rdot z z = k * k * rdot E E + 2 * (k * t * rdot E G) + t * t * rdot G G) by (unfold z; rewrite rdot_add_l, !rdot_add_r, !rdot_scale_l, !rdot_scale_r, (rdot_comm G E) by len; ring).
  assert (SQ : forall y b, 0 <= b -> y * y <= b * b -> Rabs y <= b). { intros y c C0 Hy. apply Rnot_lt_le. intros K. assert (c * c < Rabs y * Rabs y) by (apply Rmult_le_0_lt_compat; lra). rewrite <- Rabs_mult, Rabs_pos_eq in H by apply Rle_0_sqr. lra. }
  assert (C1 : Rabs (rdot w E) <= 3465 / 1000 * M). { apply SQ; [lra|]. eapply Rle_trans; [apply cauchy_schwarz; congruence|]. apply Rle_trans with (12 * (M * M) * (10004 / 10000)); [|lra]. apply Rmult_le_compat; auto using rdot_nonneg. lra. }
  assert (C2 : Rabs (rdot w G) <= 382 / 10 * (u * M)). { apply SQ; [lra|]. eapply Rle_trans; [apply cauchy_schwarz; congruence|]. apply Rle_trans with (12 * (M * M) * (11 * u * (11 * u))); [apply Rmult_le_compat; auto using rdot_nonneg|]. replace (12 * (M * M) * (11 * u * (11 * u))) with (1452 * (u * M * (u * M))) by ring. lra. }
  assert (C3 : Rabs (rdot E G) <= 12 * u). { apply SQ; [lra|]. eapply Rle_trans; [apply cauchy_schwarz; congruence|]. apply Rle_trans with (101 / 100 * (11 * u * (11 * u))); [apply Rmult_le_compat; auto using rdot_nonneg; lra|]. assert (0 < u * u) by (apply Rmult_lt_0_compat; lra). lra. }
  assert (TT : Rabs t <= 347 / 100 * M) by (rewrite Rabs_pos_eq; lra).
  assert (MB2 : forall x y bx by', Rabs x <= bx -> Rabs y <= by' -> Rabs (x * y) <= bx * by') by (intros; rewrite Rabs_mult; apply Rmult_le_compat; auto using Rabs_pos).
  assert (H1 := MB2 _ _ _ _ PT C1). assert (H2 := MB2 _ _ _ _ TT C2). assert (H3 := MB2 _ _ _ _ PT PT). assert (EE : Rabs (rdot E E) <= 1001 / 1000) by (apply Rabs_le; lra). assert (H4 := MB2 _ _ _ _ H3 EE). assert (H5 := MB2 _ _ _ _ PT TT). assert (H6 := MB2 _ _ _ _ H5 C3).
  assert (H7 := MB2 _ _ _ _ TT TT). assert (GG : Rabs (rdot G G) <= 121 * (u * u)) by (rewrite Rabs_pos_eq by apply rdot_nonneg; lra). assert (H8 := MB2 _ _ _ _ H7 GG).
  rewrite WZ, ZZ. set (q1 := k * rdot w E) in *. set (q2 := t * rdot w G) in *. set (q3 := k * k * rdot E E) in *. set (q4 := k * t * rdot E G) in *. set (q5 := t * t * rdot G G) in *.
  apply Rabs_le_inv in H1, H2, H4, H6, H8.
  replace (683 / 10 * (u * M) * (3465 / 1000 * M)) with (683 / 10 * (3465 / 1000) * (u * (M * M))) in H1 by ring. replace (347 / 100 * M * (382 / 10 * (u * M))) with (347 / 100 * (382 / 10) * (u * (M * M))) in H2 by ring.
  replace (683 / 10 * (u * M) * (683 / 10 * (u * M)) * (1001 / 1000)) with (683 / 10 * (683 / 10) * (1001 / 1000) * (u * M * (u * M))) in H4 by ring. replace (683 / 10 * (u * M) * (347 / 100 * M) * (12 * u)) with (683 / 10 * (347 / 100) * 12 * (u * M * (u * M))) in H6 by ring.
  replace (347 / 100 * M * (347 / 100 * M) * (121 * (u * u))) with (347 / 100 * (347 / 100) * 121 * (u * M * (u * M))) in H8 by ring.
  apply Rabs_le. lra.
Qed.
Lemma seg_dist : 0 <= t <= rdist B A /\ nearest (on_seg (Seg A B)) P (seg_at (Seg A B) t) /\ let r := seg_point_sqdist (Seg a b) p in
  near (pd_position r) t (683 / 10 * (u * M)) /\ near (pd_distance r) (rdist2 P (seg_at (Seg A B) t)) (1142 * (u * (M * M))) /\ 0 <= B2R (pd_distance r) <= 122 / 10 * (M * M).
Proof.
  destruct (size_M prec emax U20 E20 M M1 MO) as (UM0 & UE & MB & UM). destruct (u_small prec U20) as [U0 U1]. destruct seg_position as (FP & (P0 & PB) & T0 & PT). destruct seg_nearest as (-> & -> & NE & W). destruct e_facts as (NU & _). assert (CH := seg_change).
  split; [unfold t in *; split; [apply T0|apply Rmin_r]|]. split; [exact NE|]. cbv zeta. change (seg_point_sqdist (Seg a b) p) with (PD pos (v_squared_length (v_sub p (al_point_at_distance a e pos)))). cbn [pd_position pd_distance]. split; [split; assumption|].
  assert (MM : 0 < M * M) by (apply Rmult_lt_0_compat; lra). assert (UMM : 0 < u * (M * M)) by (apply Rmult_lt_0_compat; lra). assert (UM2 : u * (M * M) <= / 1000000 * (M * M)) by (apply Rmult_le_compat_r; lra). apply Rabs_le_inv in CH.
  destruct (offset_parts prec emax U20 E20 a e p pos M Wa NU Wp FP P0 PB M1 MO) as (H & _). { fold A E P. change (rdist2 P (rpoint A E (B2R pos)) <= 121 / 10 * (M * M)). lra. }
  fold A E P in H. change (rdot (rsub P (rpoint A E (B2R pos))) (rsub P (rpoint A E (B2R pos)))) with (rdist2 P (rpoint A E (B2R pos))) in H.
  assert (NN := sqlen_nonneg prec emax _ (proj1 H)). destruct H as (FH & H). apply Rabs_le_inv in H. split; [|lra]. split; [exact FH|]. apply Rabs_le. lra.
Qed.
End Seg.
Lemma seg_ok : forall (s : segment fl) (p : list fl) M, within M (seg_start s) -> within M (seg_end s) -> within M p -> 1 <= M -> 1000 * (M * M) <= Om ->
  let R := seg_values s in bpow radix2 (5 - emax / 2) <= rdist (seg_end R) (seg_start R) ->
  exists t, let q := seg_at R t in 0 <= t <= rdist (seg_end R) (seg_start R) /\ nearest (on_seg R) (values p) q
    /\ near (pd_position (seg_point_sqdist s p)) t (70 * (u * M)) /\ near (pd_distance (seg_point_sqdist s p)) (rdist2 (values p) q) (1150 * (u * (M * M)))
    /\ pd_position (seg_point_dist s p) = pd_position (seg_point_sqdist s p) /\ distance_near (pd_distance (seg_point_dist s p)) (rdist (values p) q) (1200 * (u * (M * M))).
Proof.
  intros [a b] p M Wa Wb Wp M1 MO R HL. unfold R, seg_values in *. clear R. cbn [seg_start seg_end] in *. destruct (size_M prec emax U20 E20 M M1 MO) as (UM0 & _). destruct (u_small prec U20) as [U0 U1]. assert (UMM : 0 < u * (M * M)) by (apply Rmult_lt_0_compat; [lra|apply Rmult_lt_0_compat; lra]).
  destruct (seg_dist a b p M Wa Wb Wp M1 MO HL) as (T0 & NE & NP & ND & (X0 & XB)). eexists. cbv zeta.
  split; [exact T0|]. split; [exact NE|]. split; [eapply near_le; [exact NP|lra]|]. split; [eapply near_le; [exact ND|lra]|]. split; [reflexivity|].
  unfold seg_point_dist, pd_sqrt. cbn [pd_distance]. rewrite <- dist_sq in ND. assert (RD := root prec emax U20 _ _ _ _ ND X0 (sqrt_pos _) XB). destruct RD as (X & B & C & E). repeat (split; [assumption|]). split; (eapply Rle_trans; [eassumption|lra]).
Qed.
End FP.
