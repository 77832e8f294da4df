(** Rounding errors of ray-plane and line-plane intersections (C104). *)
From Coq Require Import ZArith Reals List Lia Lra Bool Psatz.
From Flocq Require Import Core BinarySingleNaN.
From Verif Require Import Ops M_scalar M_vec M_mat M_geom M_intersect Inst_F S_vec S_rnd S_hit P_ord P_ieee P_vec P_fp P_fp3 P_fp4 P_hit.
Import ListNotations.
Local Open Scope R_scope.

Section FP.
Variables prec emax : Z.
Context {Hprec : Prec_gt_0 prec} {Hmax : Prec_lt_emax prec emax}.
Notation fl := (binary_float prec emax).
Notation u := (unit_roundoff prec).
Notation eta := (underflow_error prec emax).
Notation Om := (bpow radix2 emax).
Hypothesis U20 : (20 <= prec)%Z.
Hypothesis E20 : (20 <= emax)%Z.

Lemma u_small : 0 < u <= / 1000000.
Proof.
  split; [apply u_pos|]. unfold unit_roundoff. apply Rle_trans with (bpow radix2 (-20)); [apply bpow_le; lia|]. cbn. lra.
Qed.
Lemma eta_small : 0 < eta <= u / 1000.
Proof.
  split; [apply eta_pos|]. unfold underflow_error, unit_roundoff. replace (2 - emax - prec)%Z with ((2 - emax) + - prec)%Z by lia. rewrite bpow_plus.
  assert (bpow radix2 (2 - emax) <= bpow radix2 (-10)) by (apply bpow_le; lia). assert (P := bpow_gt_0 radix2 (- prec)).
  assert (bpow radix2 (-10) <= / 1000) by (cbn; lra). nra.
Qed.
Lemma unit_facts : forall v : list fl, nearly_unit v -> Forall (fun x => Rabs x <= 1001 / 1000) (values v) /\ Rabs (rdot (values v) (values v) - 1) <= 33 * u
  /\ Rabs (rnorm (values v)) <= 1001 / 1000.
Proof.
  intros v (L & F & H). destruct u_small as (U0 & U1). unfold rnorm in *. set (q := rdot (values v) (values v)) in *.
  assert (Q0 : 0 <= q) by apply rdot_nonneg. apply Rabs_le_inv in H. set (r := sqrt q) in *. assert (R0 : 0 <= r) by apply sqrt_pos.
  assert (RR : r * r = q) by (apply sqrt_sqrt; exact Q0).
  assert (R1 : r <= 1001 / 1000) by lra. split; [|split; [apply Rabs_le; nra|rewrite Rabs_pos_eq by exact R0; exact R1]].
  apply Forall_forall. intros x Hx. assert (XQ : x * x <= q).
  { unfold q. clear - Hx. induction (values v) as [|y l IH]; [destruct Hx|]. unfold rdot in *. cbn. assert (P := rdot_nonneg l). unfold rdot in P. destruct Hx as [<-|Hx]; [nra|]. specialize (IH Hx). nra. }
  assert (A := Rabs_pos x). assert (XX : Rabs x * Rabs x = x * x) by (rewrite <- Rabs_mult; apply Rabs_pos_eq; nra). nra.
Qed.
Lemma exact_all : forall v : list fl, all_finite v -> Forall2 (fun x y => near x y 0) v (values v).
Proof. intros v F. unfold values. induction F; cbn; constructor; auto. now apply near_exact. Qed.
Lemma den_near : forall d n : list fl, nearly_unit d -> nearly_unit n -> near (v_dot d n) (rdot (values d) (values n)) (11 * u).
Proof.
  intros d n Hd Hn. destruct u_small as (U0 & U1). destruct eta_small as (E0 & E1). destruct (unit_facts d Hd) as (Bd & _). destruct (unit_facts n Hn) as (Bn & _).
  destruct Hd as (Ld & Fd & _), Hn as (Ln & Fn & _).
  assert (O8 : 8 <= Om) by (change 8 with (bpow radix2 3); apply bpow_le; lia).
  eapply near_le; [apply (dot3_near prec emax d n (values d) (values n) 0 0 (1001 / 1000) (1001 / 1000)); auto using exact_all; lra|]. lra.
Qed.
(** The height of the origin over the plane *)
Lemma num_near : forall (o n : list fl) (dist : fl) M, within M o -> nearly_unit n -> is_finite dist = true -> Rabs (B2R dist) <= M -> 1 <= M -> 16384 * M <= Om ->
  near (v_dot (v_sub (v_scale n dist) o) n) (B2R dist - rdot (values o) (values n)) (64 * u * M).
Proof.
  intros o n dist M (Lo & Fo & Bo) Hn Fd Bd M1 HM. destruct u_small as (U0 & U1). destruct eta_small as (E0 & E1). destruct (unit_facts n Hn) as (Bn & Qn & _).
  destruct Hn as (Ln & Fn & _). set (t := u * M). assert (T0 : u <= t) by (unfold t; nra).
  destruct o as [|o0 [|o1 [|o2 [|]]]]; try discriminate. destruct n as [|n0 [|n1 [|n2 [|]]]]; try discriminate.
  inversion Fo as [|? ? G0 Fo']; subst. inversion Fo' as [|? ? G1 Fo'']; subst. inversion Fo'' as [|? ? G2 _]; subst.
  inversion Fn as [|? ? K0 Fn']; subst. inversion Fn' as [|? ? K1 Fn'']; subst. inversion Fn'' as [|? ? K2 _]; subst.
  assert (Bo' := Bo). assert (Bn' := Bn). unfold values in Bo', Bn'. cbn [map] in Bo', Bn'.
  inversion Bo' as [|? ? H0 Bo1]; subst. inversion Bo1 as [|? ? H1 Bo2]; subst. inversion Bo2 as [|? ? H2 _]; subst.
  inversion Bn' as [|? ? N0 Bn1]; subst. inversion Bn1 as [|? ? N1 Bn2]; subst. inversion Bn2 as [|? ? N2 _]; subst.
  assert (MD : forall x, Rabs x <= 1001 / 1000 -> Rabs (x * B2R dist) <= 1001 / 1000 * M) by (intros x Hx; rewrite Rabs_mult; apply Rmult_le_compat; auto using Rabs_pos).
  (* the anchor *)
  assert (AN : forall x : fl, is_finite x = true -> Rabs (B2R x) <= 1001 / 1000 -> near (o_mul x dist) (B2R x * B2R dist) (11 / 10 * t)).
  { intros x Fx Bx. eapply near_le; [apply (near_mul prec emax x dist _ _ 0 0 (1001 / 1000) M); auto using near_exact; unfold t in *; nra|]. unfold t in *. nra. }
  (* the difference *)
  assert (DF : forall (y o : fl) r, near y r (11 / 10 * t) -> is_finite o = true -> Rabs r <= 1001 / 1000 * M -> Rabs (B2R o) <= M -> near (o_sub y o) (r - B2R o) (32 / 10 * t) /\ Rabs (r - B2R o) <= 201 / 100 * M).
  { intros y o r Ny Fo'0 Br Bo0. assert (BB : Rabs (r - B2R o) <= 201 / 100 * M).
    { unfold Rminus. eapply Rle_trans; [apply Rabs_triang|]. rewrite Rabs_Ropp. lra. }
    split; [|exact BB]. eapply near_le; [apply (near_sub prec emax y o r (B2R o) (11 / 10 * t) 0 (201 / 100 * M)); auto using near_exact; unfold t in *; nra|]. unfold t in *. nra. }
  set (D := B2R dist) in *.
  assert (VN : exists b, v_sub (v_scale [n0; n1; n2] dist) [o0; o1; o2] = b /\ length b = 3%nat /\ Forall2 (fun x y => near x y (32 / 10 * t)) b [B2R n0 * D - B2R o0; B2R n1 * D - B2R o1; B2R n2 * D - B2R o2]).
  { exists [o_sub (o_mul n0 dist) o0; o_sub (o_mul n1 dist) o1; o_sub (o_mul n2 dist) o2]. split; [reflexivity|]. split; [reflexivity|].
    apply Forall2_cons; [|apply Forall2_cons; [|apply Forall2_cons; [|apply Forall2_nil]]]; (apply DF; [apply AN; assumption|assumption|now apply MD|assumption]). }
  destruct VN as (b & -> & Lb & VN).
  assert (BV : Forall (fun x => Rabs x <= 201 / 100 * M) [B2R n0 * D - B2R o0; B2R n1 * D - B2R o1; B2R n2 * D - B2R o2]).
  { assert (A0 := AN n0 K0 N0). assert (A1 := AN n1 K1 N1). assert (A2 := AN n2 K2 N2).
    apply Forall_cons; [|apply Forall_cons; [|apply Forall_cons; [|apply Forall_nil]]]; (eapply DF; [eassumption|eassumption|now apply MD|assumption]). }
  assert (S := dot3_near prec emax b [n0; n1; n2] _ (values [n0; n1; n2]) (32 / 10 * t) 0 (201 / 100 * M) (1001 / 1000) VN (exact_all _ Fn) Lb eq_refl BV Bn).
  assert (T1 : t <= M / 1000000) by (unfold t; nra).
  assert (T2 : 0 < t) by lra. assert (T3 : 3000 * t <= M) by lra.
  destruct S as (S1 & S2); [lra|lra|lra|lra|lra| |].
  { assert ((201 / 100 * M + 32 / 10 * t) * (1001 / 1000 + 0) <= 3 * M) by lra. lra. }
  split; [exact S1|].
  replace (B2R (v_dot b [n0; n1; n2]) - (D - rdot (values [o0; o1; o2]) (values [n0; n1; n2]))) with
    ((B2R (v_dot b [n0; n1; n2]) - rdot [B2R n0 * D - B2R o0; B2R n1 * D - B2R o1; B2R n2 * D - B2R o2] (values [n0; n1; n2])) + D * (rdot (values [n0; n1; n2]) (values [n0; n1; n2]) - 1))
    by (unfold values; cbn; ring).
  eapply Rle_trans; [apply Rabs_triang|]. rewrite (Rabs_mult D).
  assert (Q : Rabs D * Rabs (rdot (values [n0; n1; n2]) (values [n0; n1; n2]) - 1) <= M * (33 * u)) by (apply Rmult_le_compat; auto using Rabs_pos).
  assert (M * (33 * u) = 33 * t) by (unfold t; ring).
  assert (X : 3 * (201 / 100 * M * 0 + 1001 / 1000 * (32 / 10 * t) + 32 / 10 * t * 0) + 10 * u * ((201 / 100 * M + 32 / 10 * t) * (1001 / 1000 + 0)) + 4 * eta <= 31 * t).
  { assert (E : 10 * u * ((201 / 100 * M + 32 / 10 * t) * (1001 / 1000 + 0)) = 10 * (201 / 100 * (1001 / 1000)) * t + 10 * (32 / 10 * (1001 / 1000)) * (u * t)) by (unfold t; field).
    rewrite E. assert (u * t <= t / 1000000) by nra. lra. }
  replace (64 * u * M) with (64 * t) by (unfold t; ring). lra.
Qed.

Lemma is_zero_F : forall x eps : fl, is_finite x = true -> is_finite eps = true -> 0 <= B2R eps -> sc_is_zero x eps = Rle_bool (Rabs (B2R x)) (B2R eps).
Proof.
  intros x eps Fx Fe E0. unfold sc_is_zero. destruct (F_cst0 prec emax) as [F0 V0]. destruct (abs_ok prec emax x Fx) as [Fa Va].
  change (o_eq x (cst 0)) with (Beqb x (cst 0)). change (o_le (sc_abs x) eps) with (Bleb (sc_abs x) eps). rewrite (Feq prec emax) by assumption. rewrite (Fle prec emax) by assumption. rewrite V0, Va.
  destruct (Req_bool_spec (B2R x) 0) as [Z|Z]; [|reflexivity]. rewrite Z, Rabs_R0. cbn. symmetry. now apply Rle_bool_true.
Qed.
Lemma dot_bound : forall (a b : list fl) A B, length a = 3%nat -> length b = 3%nat -> Forall (fun x => Rabs x <= A) (values a) -> Forall (fun x => Rabs x <= B) (values b) ->
  Rabs (rdot (values a) (values b)) <= 3 * (A * B).
Proof.
  intros a b A B La Lb FA FB. destruct a as [|a0 [|a1 [|a2 [|]]]]; try discriminate. destruct b as [|b0 [|b1 [|b2 [|]]]]; try discriminate. unfold values in *. cbn [map] in *.
  inversion FA as [|? ? A0 FA1]; subst. inversion FA1 as [|? ? A1 FA2]; subst. inversion FA2 as [|? ? A2 _]; subst.
  inversion FB as [|? ? B0 FB1]; subst. inversion FB1 as [|? ? B1 FB2]; subst. inversion FB2 as [|? ? B2 _]; subst.
  assert (K : forall x y, Rabs x <= A -> Rabs y <= B -> Rabs (x * y) <= A * B) by (intros x y X Y; rewrite Rabs_mult; apply Rmult_le_compat; auto using Rabs_pos).
  assert (K0 := K _ _ A0 B0). assert (K1 := K _ _ A1 B1). assert (K2 := K _ _ A2 B2). apply Rabs_le_inv in K0, K1, K2. cbn. apply Rabs_le. lra.
Qed.
(** The quotient *)
Lemma quotient_ok : forall (num den : fl) g c M, near num g (64 * u * M) -> near den c (11 * u) -> Rabs g <= 402 / 100 * M -> Rabs c <= 4 -> / 1100 <= Rabs (B2R den) -> 1 <= M -> 16384 * M <= Om ->
  is_finite (o_div num den) = true /\ Rabs (B2R (o_div num den)) <= 4500 * M
  /\ Rabs (B2R (o_div num den) * c - g) <= u * (70 * M + 11 * Rabs (B2R (o_div num den))).
Proof.
  intros num den g c M Nn Nd Bg Bc LB M1 HM. destruct u_small as (U0 & U1). destruct eta_small as (E0 & E1). set (t := u * M). assert (T0 : u <= t) by (unfold t; nra). assert (T1 : t <= M / 1000000) by (unfold t; nra).
  assert (Vn := near_val prec emax _ _ _ _ Nn Bg). assert (Vd := near_val prec emax _ _ _ _ Nd Bc). destruct Nn as (Fn & Hn), Nd as (Fd & Hd).
  replace (64 * u * M) with (64 * t) in * by (unfold t; ring).
  assert (D0 : B2R den <> 0) by (intros Z; rewrite Z, Rabs_R0 in LB; lra).
  set (N := B2R num) in *. set (D := B2R den) in *.
  assert (BN : Rabs N <= 403 / 100 * M) by lra.
  assert (QB : Rabs (N / D) <= 4440 * M).
  { unfold Rdiv. rewrite Rabs_mult, Rabs_inv. assert (I : / Rabs D <= 1100) by (rewrite <- (Rinv_inv 1100); apply Rinv_le; [lra|exact LB]).
    assert (IP : 0 < / Rabs D) by (apply Rinv_0_lt_compat; lra). assert (PN := Rabs_pos N). apply Rle_trans with (403 / 100 * M * 1100); [apply Rmult_le_compat; lra|lra]. }
  assert (QP := Rabs_pos (N / D)).
  destruct (div_ok prec emax num den Fn) as (F & d & e & Hd1 & He & E); [exact D0| |].
  { fold N D. nra. }
  fold N D in E. set (s := B2R (o_div num den)) in *. split; [exact F|].
  assert (SD : s * D = N + (N * d + e * D)) by (rewrite E; field; exact D0).
  assert (BS : Rabs s <= 4500 * M).
  { rewrite E. eapply Rle_trans; [apply (bound_mul prec emax); [exact Hd1|exact He]|]. nra. }
  split; [exact BS|].
  replace (s * c - g) with ((N - g) + N * d + e * D + s * (c - D)) by lra.
  assert (B1 : Rabs (N * d) <= 403 / 100 * M * u) by (rewrite Rabs_mult; apply Rmult_le_compat; auto using Rabs_pos).
  assert (B2 : Rabs (e * D) <= eta * 5) by (rewrite Rabs_mult; apply Rmult_le_compat; auto using Rabs_pos; lra).
  assert (B3 : Rabs (s * (c - D)) <= Rabs s * (11 * u)) by (rewrite Rabs_mult; apply Rmult_le_compat_l; [apply Rabs_pos|rewrite Rabs_minus_sym; exact Hd]).
  eapply Rle_trans; [apply Rabs_triang|]. eapply Rle_trans; [apply Rplus_le_compat_r, Rabs_triang|]. eapply Rle_trans; [apply Rplus_le_compat_r, Rplus_le_compat_r, Rabs_triang|].
  replace (u * (70 * M + 11 * Rabs s)) with (70 * t + Rabs s * (11 * u)) by (unfold t; ring). replace (403 / 100 * M * u) with (403 / 100 * t) in B1 by (unfold t; ring). lra.
Qed.
(** The point *)
Lemma point_near : forall (o d : list fl) (s : fl) M, within M o -> nearly_unit d -> is_finite s = true -> Rabs (B2R s) <= 4500 * M -> 1 <= M -> 16384 * M <= Om ->
  let q := al_point_at_distance o d s in length q = 3%nat /\ all_finite q /\
  Forall2 (fun x y => near x y (u * (101 / 100 * M + 21 / 10 * Rabs (B2R s)))) q (map2 (fun x y => x + y * B2R s) (values o) (values d)).
Proof.
  intros o d s M (Lo & Fo & Bo) Hd Fs Bs M1 HM. destruct u_small as (U0 & U1). destruct eta_small as (E0 & E1). destruct (unit_facts d Hd) as (Bd & _ & _).
  destruct Hd as (Ld & Fd & _). set (e := u * (101 / 100 * M + 21 / 10 * Rabs (B2R s))). set (S := Rabs (B2R s)) in *. assert (S0 : 0 <= S) by apply Rabs_pos.
  assert (K : forall x y : fl, is_finite x = true -> is_finite y = true -> Rabs (B2R x) <= M -> Rabs (B2R y) <= 1001 / 1000 -> near (o_add x (o_mul y s)) (B2R x + B2R y * B2R s) e).
  { intros x y Fx Fy Bx By.
    assert (N1 := near_mul prec emax y s _ _ 0 0 (1001 / 1000) S (near_exact prec emax y Fy) (near_exact prec emax s Fs) By (Rle_refl _)).
    assert (BM : Rabs (B2R x + B2R y * B2R s) <= M + 1001 / 1000 * S).
    { eapply Rle_trans; [apply Rabs_triang|]. apply Rplus_le_compat; auto. rewrite Rabs_mult. apply Rmult_le_compat; auto using Rabs_pos. unfold S. lra. }
    assert (US : u * S <= S / 1000000) by nra. assert (UM : u * M <= M / 1000000) by nra. assert (UM1 : u <= u * M) by nra. assert (UUS : u * (u * S) <= u * S / 1000000) by nra. assert (U0S : 0 <= u * S) by nra.
    assert (N2 := N1 ltac:(nra)). assert (N3 := near_add prec emax x _ _ _ 0 _ (M + 1001 / 1000 * S) (near_exact prec emax x Fx) N2 BM).
    eapply near_le; [apply N3; nra|]. unfold e. nra. }
  destruct o as [|o0 [|o1 [|o2 [|]]]]; try discriminate. destruct d as [|n0 [|n1 [|n2 [|]]]]; try discriminate.
  inversion Fo as [|? ? G0 Fo']; subst. inversion Fo' as [|? ? G1 Fo'']; subst. inversion Fo'' as [|? ? G2 _]; subst.
  inversion Fd as [|? ? K0 Fn']; subst. inversion Fn' as [|? ? K1 Fn'']; subst. inversion Fn'' as [|? ? K2 _]; subst.
  unfold values in *. cbn [map map2] in *.
  inversion Bo as [|? ? H0 Bo1]; subst. inversion Bo1 as [|? ? H1 Bo2]; subst. inversion Bo2 as [|? ? H2 _]; subst.
  inversion Bd as [|? ? N0 Bn1]; subst. inversion Bn1 as [|? ? N1 Bn2]; subst. inversion Bn2 as [|? ? N2 _]; subst.
  cbv zeta. change (al_point_at_distance [o0; o1; o2] [n0; n1; n2] s) with [o_add o0 (o_mul n0 s); o_add o1 (o_mul n1 s); o_add o2 (o_mul n2 s)].
  assert (P0 := K o0 n0 G0 K0 H0 N0). assert (P1 := K o1 n1 G1 K1 H1 N1). assert (P2 := K o2 n2 G2 K2 H2 N2).
  split; [reflexivity|]. split.
  - apply Forall_cons; [apply P0|]. apply Forall_cons; [apply P1|]. apply Forall_cons; [apply P2|]. apply Forall_nil.
  - apply Forall2_cons; [exact P0|]. apply Forall2_cons; [exact P1|]. apply Forall2_cons; [exact P2|]. apply Forall2_nil.
Qed.
End FP.
