(** Distances of points to rays in machine arithmetic (C117). *)
From Coq Require Import ZArith Reals List Lia Lra Bool Psatz.
From Flocq Require Import Core BinarySingleNaN.
From Verif Require Import Ops M_scalar M_vec M_geom M_dist Inst_F S_vec S_geom S_dist S_rnd S_hit S_raybox S_distf P_ieee P_vec P_line P_fp P_fp4 P_hit P_hit2 P_tbox P_sphere P_lu P_raytri P_polyf.
Import ListNotations.
Local Open Scope R_scope.

(** ** The nearest point of a ray in real arithmetic *)
Lemma along : forall o d p t, length o = length d -> length p = length d ->
  rdist2 p (rpoint o d t) = rdot (rsub p o) (rsub p o) - 2 * (t * rdot (rsub p o) d) + t * t * rdot d d.
Proof.
  intros o d p t L1 L2. unfold rdist2. replace (rsub p (rpoint o d t)) with (rsub (rsub p o) (rscale t d)) by (vext; ring).
  assert (L : length (rsub p o) = length d) by len. generalize dependent (rsub p o). intros v L.
  rewrite rdot_sub_l, !rdot_sub_r, !rdot_scale_l, !rdot_scale_r, (rdot_comm d v) by len. ring.
Qed.
Lemma nearest_at : forall o d p, length o = length d -> length p = length d -> 0 < rdot d d -> let t := Rmax (rdot (rsub p o) d) 0 / rdot d d in
  0 <= t /\ nearest (on_ray (Ray o d)) p (rpoint o d t) /\ forall x, 0 <= x -> rdist2 p (rpoint o d t) <= rdist2 p (rpoint o d x).
Proof.
  intros o d p L1 L2 N0 t. set (S := rdot (rsub p o) d) in *. set (N := rdot d d) in *.
  assert (T0 : 0 <= t) by (unfold t; apply Rmult_le_pos; [apply Rmax_r|apply Rlt_le, Rinv_0_lt_compat, N0]).
  assert (G : forall x, 0 <= x -> rdist2 p (rpoint o d t) <= rdist2 p (rpoint o d x)).
  { intros x X0. rewrite !along by assumption. fold S N. unfold t, Rmax. destruct (Rle_dec S 0) as [H|H].
    - assert (K1 : 0 <= x * x * N) by (apply Rmult_le_pos; [apply Rmult_le_pos|]; lra). assert (K2 : 0 <= x * - S) by (apply Rmult_le_pos; lra). unfold Rdiv. lra.
    - assert (K : 0 <= (x - S / N) * (x - S / N) * N) by (apply Rmult_le_pos; [apply Rle_0_sqr|lra]). replace (x * x * N) with ((x - S / N) * (x - S / N) * N + 2 * (x * S) - S / N * S) by (field; lra). replace (S / N * (S / N) * N) with (S / N * S) by (field; lra). lra. }
  split; [exact T0|]. split; [|exact G]. split; [exists t; auto|]. intros q' (x & X0 & ->). cbn [ray_origin ray_dir]. apply rdist_le. exact (G x X0).
Qed.

Section FP.
Variables prec emax : Z.
Context {Hprec : Prec_gt_0 prec} {Hmax : Prec_lt_emax prec emax}.
Notation fl := (binary_float prec emax).
Notation u := (unit_roundoff prec).
Notation eta := (underflow_error prec emax).
Notation Om := (bpow radix2 emax).
Hypothesis U20 : (20 <= prec)%Z.
Hypothesis E20 : (20 <= emax)%Z.

Lemma max_F : forall x y : fl, is_finite x = true -> is_finite y = true -> is_finite (sc_max x [y]) = true /\ B2R (sc_max x [y]) = Rmax (B2R x) (B2R y).
Proof.
  intros x y F G. cbn [sc_max]. rewrite (lt_F prec emax) by assumption. destruct (Rlt_bool_spec (B2R y) (B2R x)); split; try assumption; [rewrite Rmax_left|rewrite Rmax_right]; lra.
Qed.
Lemma min_F : forall x y : fl, is_finite x = true -> is_finite y = true -> is_finite (sc_min x [y]) = true /\ B2R (sc_min x [y]) = Rmin (B2R x) (B2R y).
Proof.
  intros x y F G. cbn [sc_min]. rewrite (lt_F prec emax) by assumption. destruct (Rlt_bool_spec (B2R x) (B2R y)); split; try assumption; [rewrite Rmin_left|rewrite Rmin_right]; lra.
Qed.
(** The square root of a squared distance *)
Lemma root : forall (x : fl) d e E, near x (d * d) e -> 0 <= B2R x -> 0 <= d -> B2R x <= E -> distance_near (o_sqrt x) d (e + 21 / 10 * (u * E)).
Proof.
  intros x d e E (F & H) X0 D0 XE. destruct (u_small prec U20) as [U0 U1]. destruct (sqrt_acc prec emax x F X0) as (FS & k & K & V). apply Rabs_le_inv in K.
  set (r := sqrt (B2R x)) in *. assert (R0 : 0 <= r) by apply sqrt_pos. assert (RR : r * r = B2R x) by (apply sqrt_sqrt; exact X0).
  assert (B0 : 0 <= B2R (o_sqrt x)) by (rewrite V; apply Rmult_le_pos; lra).
  assert (Q : Rabs (B2R (o_sqrt x) * B2R (o_sqrt x) - d * d) <= e + 21 / 10 * (u * E)).
  { rewrite V. replace (r * (1 + k) * (r * (1 + k)) - d * d) with ((B2R x - d * d) + B2R x * (2 * k + k * k)) by (rewrite <- RR; ring). eapply Rle_trans; [apply Rabs_triang|]. apply Rplus_le_compat; [exact H|].
    rewrite Rabs_mult, (Rabs_pos_eq (B2R x)) by exact X0. assert (KK : Rabs (2 * k + k * k) <= 21 / 10 * u).
    { assert (k * k <= u * u) by (rewrite <- (Rabs_pos_eq (k * k)), Rabs_mult by apply Rle_0_sqr; apply Rmult_le_compat; auto using Rabs_pos; apply Rabs_le; lra). assert (u * u <= / 1000000 * u) by (apply Rmult_le_compat_r; lra). assert (0 <= k * k) by apply Rle_0_sqr. apply Rabs_le. lra. }
    replace (21 / 10 * (u * E)) with (E * (21 / 10 * u)) by ring. apply Rmult_le_compat; auto using Rabs_pos. }
  repeat (split; [assumption|]). apply Rle_trans with (2 := Q). set (y := B2R (o_sqrt x)) in *. replace (y * y - d * d) with ((y - d) * (y + d)) by ring. rewrite Rabs_mult, (Rabs_pos_eq (y + d)) by lra. apply Rmult_le_compat_l; [apply Rabs_pos|lra].
Qed.

(** ** The vector from a point at a computed distance *)
Section Offset.
Variables (o d p : list fl) (x : fl) (M : R).
Hypothesis (Wo : within M o) (Nd : nearly_unit d) (Wp : within M p) (Fx : is_finite x = true) (X0 : 0 <= B2R x) (XB : B2R x <= 348 / 100 * M) (M1 : 1 <= M) (MO : 1000 * (M * M) <= Om).
Let w := rsub (values p) (rpoint (values o) (values d) (B2R x)).
Hypothesis (HW : rdot w w <= 121 / 10 * (M * M)).
Lemma size_M : 0 < u * M /\ eta <= / 1000 * (u * M) /\ 1000 * M <= Om /\ u * M <= / 1000000 * M.
Proof.
  destruct (u_small prec U20) as [U0 U1]. destruct (eta_small prec emax E20) as [T0 TS]. assert (u * 1 <= u * M) by (apply Rmult_le_compat_l; lra). assert (u * M <= / 1000000 * M) by (apply Rmult_le_compat_r; lra). assert (1 * M <= M * M) by (apply Rmult_le_compat_r; lra). repeat split; lra.
Qed.
Lemma component_offset : forall (a e q : fl), is_finite a = true -> is_finite e = true -> is_finite q = true -> Rabs (B2R a) <= M -> Rabs (B2R e) <= 1001 / 1000 -> Rabs (B2R q - (B2R a + B2R x * B2R e)) <= 35 / 10 * M ->
  near (o_sub q (o_add a (o_mul e x))) (B2R q - (B2R a + B2R x * B2R e)) (34 / 10 * (u * (35 / 10 * M))) /\ near (o_sub (o_add a (o_mul e x)) q) (B2R a + B2R x * B2R e - B2R q) (34 / 10 * (u * (35 / 10 * M))).
Proof.
  intros a e q Fa Fe Fq Ba Be Bq. destruct size_M as (UM0 & UE & MB & UM). destruct (u_small prec U20) as [U0 U1]. destruct (eta_small prec emax E20) as [T0 TS].
  assert (UUM : u * (u * M) <= / 1000000 * (u * M)) by (apply Rmult_le_compat_r; lra).
  assert (N1 : near (o_mul e x) (B2R x * B2R e) (3485 / 1000 * (u * M))).
  { rewrite Rmult_comm. eapply near_le; [apply near_mul with (A := 1001 / 1000) (B := 348 / 100 * M) (e1 := 0) (e2 := 0); auto using near_exact|].
    - rewrite Rabs_pos_eq; lra.
    - lra.
    - lra. }
  assert (BX : Rabs (B2R x * B2R e) <= 34835 / 10000 * M) by (rewrite Rabs_mult, (Rabs_pos_eq (B2R x)) by exact X0; replace (34835 / 10000 * M) with (348 / 100 * M * (34835 / 34800)) by field; apply Rmult_le_compat; auto using Rabs_pos; lra).
  assert (N2 : near (o_add a (o_mul e x)) (B2R a + B2R x * B2R e) (797 / 100 * (u * M))).
  { eapply near_le; [apply near_add with (A := 44835 / 10000 * M) (e1 := 0) (e2 := 3485 / 1000 * (u * M)); auto using near_exact|].
    - eapply Rle_trans; [apply Rabs_triang|lra].
    - lra.
    - lra. }
  split.
  - eapply near_le; [apply near_sub with (A := 35 / 10 * M) (e1 := 0) (e2 := 797 / 100 * (u * M)); auto using near_exact|]; lra.
  - eapply near_le; [apply near_sub with (A := 35 / 10 * M) (e2 := 0) (e1 := 797 / 100 * (u * M)); auto using near_exact|]; try lra. rewrite Rabs_minus_sym. exact Bq.
Qed.
Lemma offset_parts : near (v_squared_length (v_sub p (al_point_at_distance o d x))) (rdot w w) (400 * (u * (M * M))) /\ near (v_squared_length (v_sub (al_point_at_distance o d x) p)) (rdot w w) (400 * (u * (M * M))).
Proof.
  destruct size_M as (UM0 & UE & MB & UM). destruct (u_small prec U20) as [U0 U1]. assert (MM : 1 * M <= M * M) by (apply Rmult_le_compat_r; lra). assert (UMM : 0 < u * (M * M)) by (apply Rmult_lt_0_compat; lra).
  destruct (within3 prec emax M o Wo) as (o0 & o1 & o2 & Eo & (F1 & F2 & F3) & (B1 & B2 & B3)). destruct (within3 prec emax M p Wp) as (p0 & p1 & p2 & Ep & (F4 & F5 & F6) & (B4 & B5 & B6)).
  destruct (unit_facts prec emax U20 d Nd) as (Bd & _). destruct Nd as (Ld & Fd & _). destruct d as [|d0 [|d1 [|d2 [|]]]]; try discriminate Ld. inversion Fd as [|? ? G0 Fd1]; subst. inversion Fd1 as [|? ? G1 Fd2]; subst. inversion Fd2 as [|? ? G2 _]; subst.
  inversion Bd as [|? ? C0 Bd1]; subst. inversion Bd1 as [|? ? C1 Bd2]; subst. inversion Bd2 as [|? ? C2 _]; subst.
  unfold w in *. clear w. cbn [values map rsub rpoint radd rscale zip rdot] in HW |- *.
  unfold al_point_at_distance. cbn [v_sub v_add v_scale map2 map].
  set (w0 := B2R p0 - (B2R o0 + B2R x * B2R d0)) in *. set (w1 := B2R p1 - (B2R o1 + B2R x * B2R d1)) in *. set (w2 := B2R p2 - (B2R o2 + B2R x * B2R d2)) in *.
  assert (Q0 := Rle_0_sqr w0). assert (Q1 := Rle_0_sqr w1). assert (Q2 := Rle_0_sqr w2). unfold Rsqr in Q0, Q1, Q2.
  assert (SB : forall y, y * y <= 121 / 10 * (M * M) -> Rabs y <= 35 / 10 * M). { intros y Hy. apply Rsqr_le_abs_0_alt || idtac. apply Rnot_lt_le. intros K. assert (35 / 10 * M * (35 / 10 * M) < Rabs y * Rabs y) by (apply Rmult_le_0_lt_compat; lra). rewrite <- Rabs_mult, Rabs_pos_eq in H by apply Rle_0_sqr. lra. }
  assert (S0 : Rabs w0 <= 35 / 10 * M) by (apply SB; lra). assert (S1 : Rabs w1 <= 35 / 10 * M) by (apply SB; lra). assert (S2 : Rabs w2 <= 35 / 10 * M) by (apply SB; lra).
  destruct (component_offset o0 d0 p0) as (A0 & A0'); auto. destruct (component_offset o1 d1 p1) as (A1 & A1'); auto. destruct (component_offset o2 d2 p2) as (A2 & A2'); auto.
  fold w0 in A0. fold w1 in A1. fold w2 in A2. replace (_ - B2R p0) with (- w0) in A0' by (unfold w0; ring). replace (_ - B2R p1) with (- w1) in A1' by (unfold w1; ring). replace (_ - B2R p2) with (- w2) in A2' by (unfold w2; ring).
  assert (V1 := vnear_intro prec emax _ _ _ _ _ _ _ _ A0 A1 A2 S0 S1 S2). rewrite <- Rabs_Ropp in S0, S1, S2. assert (V2 := vnear_intro prec emax _ _ _ _ _ _ _ _ A0' A1' A2' S0 S1 S2).
  unfold v_squared_length. destruct (dot_k prec emax U20 E20 _ _ _ _ _ _ _ _ V1 V1) as (D1 & _); try lra. destruct (dot_k prec emax U20 E20 _ _ _ _ _ _ _ _ V2 V2) as (D2 & _); try lra.
  cbn [rdot] in D1, D2. split; [eapply near_le; [exact D1|lra]|]. replace (w0 * w0 + (w1 * w1 + (w2 * w2 + 0))) with (- w0 * - w0 + (- w1 * - w1 + (- w2 * - w2 + 0))) by ring. eapply near_le; [exact D2|lra].
Qed.
End Offset.
(** Squared lengths are not negative. *)
Lemma sqlen_nonneg : forall v : list fl, is_finite (v_squared_length v) = true -> 0 <= B2R (v_squared_length v).
Proof.
  assert (G : forall v (a : fl), (is_finite a = true -> 0 <= B2R a) -> let r := fold_left (fun result q => o_add result (o_mul (fst q) (snd q))) (combine v v) a in is_finite r = true -> 0 <= B2R r).
  { assert (RN : forall y, 0 <= y -> 0 <= round radix2 (SpecFloat.fexp prec emax) (round_mode mode_NE) y). { intros y Hy. rewrite <- (round_0 radix2 (SpecFloat.fexp prec emax) (round_mode mode_NE)). apply round_le; [exact (fexp_correct prec emax Hprec)|apply valid_rnd_round_mode|exact Hy]. }
    induction v as [|x v IH]; intros a Ha r Hr; [exact (Ha Hr)|]. apply (IH (o_add a (o_mul x x))); [|exact Hr]. intros H. destruct (add_inv prec emax _ _ H) as (Fa & Fm & V). destruct (mul_inv prec emax _ _ Fm) as (_ & _ & V2). rewrite V, V2. apply RN. apply Rplus_le_le_0_compat; [exact (Ha Fa)|]. apply RN, Rle_0_sqr. }
  intros v. apply (G v (cst 0)). intros _. destruct (F_cst0 prec emax) as [_ ->]. lra.
Qed.

(** ** Rays *)
Section Ray.
Variables (o d p : list fl) (M : R).
Hypothesis (Wo : within M o) (Nd : nearly_unit d) (Wp : within M p) (M1 : 1 <= M) (MO : 1000 * (M * M) <= Om).
Let O := values o. Let D := values d. Let P := values p.
Let S := rdot (rsub P O) D.
Let N := rdot D D.
Lemma lengths : length O = 3%nat /\ length D = 3%nat /\ length P = 3%nat.
Proof. unfold O, D, P, values. rewrite !map_length. split; [apply Wo|]. split; [apply Nd|apply Wp]. Qed.
Lemma square_diff : rdot (rsub P O) (rsub P O) <= 12 * (M * M).
Proof.
  destruct Wo as (Lo & _ & Bo), Wp as (Lp & _ & Bp). unfold O, P. destruct (within3 prec emax M o Wo) as (o0 & o1 & o2 & -> & _ & (B1 & B2 & B3)). destruct (within3 prec emax M p Wp) as (p0 & p1 & p2 & -> & _ & (B4 & B5 & B6)).
  cbn [values map rsub zip rdot]. assert (G : forall x y, Rabs x <= M -> Rabs y <= M -> (x - y) * (x - y) <= 4 * (M * M)).
  { intros x y Hx Hy. apply Rabs_le_inv in Hx, Hy. rewrite <- (Rabs_pos_eq ((x - y) * (x - y))), Rabs_mult by apply Rle_0_sqr. replace (4 * (M * M)) with ((2 * M) * (2 * M)) by ring. apply Rmult_le_compat; auto using Rabs_pos; apply Rabs_le; lra. }
  assert (G0 := G _ _ B4 B1). assert (G1 := G _ _ B5 B2). assert (G2 := G _ _ B6 B3). lra.
Qed.
Lemma root_bound : forall y, y * y <= 1201 / 100 * (M * M) -> Rabs y <= 347 / 100 * M.
Proof. intros y Hy. apply Rnot_lt_le. intros K. assert (H : 347 / 100 * M * (347 / 100 * M) < Rabs y * Rabs y) by (apply Rmult_le_0_lt_compat; lra). rewrite <- Rabs_mult, Rabs_pos_eq in H by apply Rle_0_sqr. assert (0 < M * M) by (apply Rmult_lt_0_compat; lra). lra. Qed.
Lemma dot_bound : Rabs (N - 1) <= 33 * u /\ Rabs S <= 347 / 100 * M.
Proof.
  destruct (u_small prec U20) as [U0 U1]. destruct lengths as (LO & LD & LP). destruct (unit_facts prec emax U20 d Nd) as (_ & HN & _). fold D N in HN. split; [exact HN|]. apply root_bound. apply Rabs_le_inv in HN.
  eapply Rle_trans; [unfold S; apply cauchy_schwarz; unfold rsub; rewrite zip_length; lia|]. fold N. assert (F := square_diff). apply Rle_trans with (12 * (M * M) * (10005 / 10000)); [|assert (0 < M * M) by (apply Rmult_lt_0_compat; lra); lra]. apply Rmult_le_compat; [apply rdot_nonneg|lra|exact F|lra].
Qed.
Lemma scale_near : near (v_dot (v_sub p o) d) S (3003 / 100 * (u * M)).
Proof.
  destruct (size_M M M1 MO) as (UM0 & UE & MB & UM). destruct (u_small prec U20) as [U0 U1]. assert (V1 := edge_k prec emax U20 E20 M p o Wp Wo M1 ltac:(lra)). assert (V2 := dir_k prec emax U20 d Nd).
  destruct (dot_k prec emax U20 E20 _ _ _ _ _ _ _ _ V1 V2) as (H & _); try lra. eapply near_le; [exact H|lra].
Qed.
Let pos := sc_max (v_dot (v_sub p o) d) [cst 0].
Let t := Rmax S 0 / N.
Lemma position : is_finite pos = true /\ 0 <= B2R pos <= 348 / 100 * M /\ Rabs (B2R pos - t) <= 145 * (u * M) /\ rdist2 P (rpoint O D (B2R pos)) <= rdist2 P (rpoint O D t) + / 10 * (u * (M * M)).
Proof.
  destruct (size_M M M1 MO) as (UM0 & UE & MB & UM). destruct (u_small prec U20) as [U0 U1]. destruct scale_near as (FS & HS). destruct dot_bound as (HN & BS). destruct lengths as (LO & LD & LP). destruct (F_cst0 prec emax) as [F0 V0].
  destruct (max_F _ _ FS F0) as (FP & VP). fold pos in FP, VP. rewrite V0 in VP. set (s := B2R (v_dot (v_sub p o) d)) in *. apply Rabs_le_inv in HS, HN, BS. split; [exact FP|].
  assert (P0 : 0 <= B2R pos) by (rewrite VP; apply Rmax_r). assert (PB : B2R pos <= 348 / 100 * M) by (rewrite VP; apply Rmax_lub; lra). split; [lra|].
  set (m := Rmax S 0) in *. assert (MB0 : 0 <= m <= 347 / 100 * M) by (unfold m; split; [apply Rmax_r|apply Rmax_lub; lra]). assert (PM : Rabs (B2R pos - m) <= 3003 / 100 * (u * M)) by (rewrite VP; unfold m, Rmax; destruct (Rle_dec s 0), (Rle_dec S 0); apply Rabs_le; lra).
  assert (TN : t * N = m) by (unfold t; field; lra). assert (T0 : 0 <= t) by (unfold t; apply Rmult_le_pos; [lra|apply Rlt_le, Rinv_0_lt_compat; lra]).
  assert (TB : t <= 348 / 100 * M). { apply Rmult_le_reg_r with N; [lra|]. rewrite TN. assert (348 / 100 * M * (1 - 33 * u) <= 348 / 100 * M * N) by (apply Rmult_le_compat_l; lra). lra. }
  assert (TM : Rabs (m - t) <= 11485 / 100 * (u * M)). { rewrite <- TN. replace (t * N - t) with (t * (N - 1)) by ring. rewrite Rabs_mult, (Rabs_pos_eq t) by exact T0. replace (11485 / 100 * (u * M)) with (348 / 100 * M * (11485 / 348 * u)) by field. apply Rmult_le_compat; auto using Rabs_pos. apply Rabs_le. lra. }
  assert (PT : Rabs (B2R pos - t) <= 145 * (u * M)) by (apply Rabs_le_inv in PM, TM; apply Rabs_le; lra). split; [exact PT|].
  rewrite !along by congruence. fold S N. assert (MM : 0 < M * M) by (apply Rmult_lt_0_compat; lra).
  assert (SM : forall z k, Rabs z <= k * (u * M) -> z * z <= k * k * (/ 1000000 * (u * (M * M)))).
  { intros z k Hz. rewrite <- (Rabs_pos_eq (z * z)), Rabs_mult by apply Rle_0_sqr. apply Rle_trans with (k * (u * M) * (k * (u * M))); [apply Rmult_le_compat; auto using Rabs_pos|]. replace (k * (u * M) * (k * (u * M))) with (k * k * (u * (u * (M * M)))) by ring. apply Rmult_le_compat_l; [apply Rle_0_sqr|]. apply Rmult_le_compat_r; [apply Rmult_le_pos|]; lra. }
  assert (UMM : 0 < u * (M * M)) by (apply Rmult_lt_0_compat; lra). destruct (Rle_lt_dec S 0) as [NS|PS].
  - assert (M0 : m = 0) by (unfold m; rewrite Rmax_right; lra). assert (T00 : t = 0) by (unfold t; fold m; rewrite M0; unfold Rdiv; ring). rewrite T00. rewrite M0 in PM. replace (B2R pos - 0) with (B2R pos) in PM by ring.
    assert (Q := SM _ _ PM). assert (QN : B2R pos * B2R pos * N <= B2R pos * B2R pos * (1001 / 1000)) by (apply Rmult_le_compat_l; [apply Rle_0_sqr|lra]).
    assert (QS : - (B2R pos * S) <= 3003 / 100 * (3003 / 100) * (/ 1000000 * (u * (M * M)))).
    { destruct (Rle_lt_dec s 0) as [K|K]; [assert (Z : B2R pos = 0) by (rewrite VP, Rmax_right; lra); rewrite Z; lra|]. assert (VS : Rabs ((B2R pos - S) / 2) <= 3003 / 100 * (u * M)) by (apply Rabs_le_inv in PM; rewrite Rmax_left in VP by lra; apply Rabs_le; lra).
      assert (W := SM _ _ VS). assert (0 <= (B2R pos + S) * (B2R pos + S)) by apply Rle_0_sqr. lra. }
    lra.
  - assert (M0 : m = S) by (unfold m; rewrite Rmax_left; lra). assert (Q := SM _ _ PT). assert (QN : (B2R pos - t) * (B2R pos - t) * N <= (B2R pos - t) * (B2R pos - t) * (1001 / 1000)) by (apply Rmult_le_compat_l; [apply Rle_0_sqr|lra]).
    rewrite <- M0, <- TN. assert (E : - 2 * (B2R pos * (t * N)) + B2R pos * B2R pos * N = (B2R pos - t) * (B2R pos - t) * N - t * t * N) by ring. lra.
Qed.
Lemma ray_dist : 0 <= t /\ nearest (on_ray (Ray O D)) P (rpoint O D t) /\ let r := ray_point_sqdist (Ray o d) p in
  near (pd_position r) t (145 * (u * M)) /\ near (pd_distance r) (rdist2 P (rpoint O D t)) (401 * (u * (M * M))) /\ 0 <= B2R (pd_distance r) <= 122 / 10 * (M * M).
Proof.
  destruct (size_M M M1 MO) as (UM0 & UE & MB & UM). destruct (u_small prec U20) as [U0 U1]. destruct dot_bound as (HN & BS). destruct lengths as (LO & LD & LP). destruct position as (FP & (P0 & PB) & PT & DT). destruct (F_cst0 prec emax) as [F0 V0]. apply Rabs_le_inv in HN.
  destruct (nearest_at O D P ltac:(congruence) ltac:(congruence) ltac:(fold N; lra)) as (T0 & NE & LE). fold S N t in T0, NE, LE. split; [exact T0|]. split; [exact NE|]. cbv zeta.
  assert (MM : 0 < M * M) by (apply Rmult_lt_0_compat; lra). assert (UMM : 0 < u * (M * M)) by (apply Rmult_lt_0_compat; lra). assert (UM2 : u * (M * M) <= / 1000000 * (M * M)) by (apply Rmult_le_compat_r; lra).
  assert (L0 := LE 0 (Rle_refl 0)). assert (Z : rdist2 P (rpoint O D 0) = rdot (rsub P O) (rsub P O)) by (rewrite along by congruence; ring). assert (F := square_diff).
  assert (LP2 := LE _ P0). assert (NP : near pos t (145 * (u * M))) by (split; assumption).
  unfold ray_point_sqdist. cbn [ray_origin ray_dir]. fold pos. destruct (o_eq pos (cst 0)) eqn:E; cbn [pd_position pd_distance]; (split; [exact NP|]).
  - change (Beqb pos (cst 0) = true) in E. rewrite (Feq prec emax), V0 in E by assumption. assert (PZ : B2R pos = 0) by (revert E; case Req_bool_spec; [auto|discriminate]). rewrite PZ in *.
    assert (V1 := edge_k prec emax U20 E20 M p o Wp Wo M1 ltac:(lra)). destruct (dot_k prec emax U20 E20 _ _ _ _ _ _ _ _ V1 V1) as (H & _); try lra. fold O P in H. change (v_dot (v_sub p o) (v_sub p o)) with (v_squared_length (v_sub p o)) in H.
    assert (NN := sqlen_nonneg (v_sub p o) (proj1 H)). destruct H as (FH & H). apply Rabs_le_inv in H. split; [|lra]. split; [exact FH|]. rewrite Z in *. apply Rabs_le. lra.
  - destruct (offset_parts o d p pos M Wo Nd Wp FP P0 PB M1 MO) as (_ & H). { fold O D P. change (rdist2 P (rpoint O D (B2R pos)) <= 121 / 10 * (M * M)). lra. }
    fold O D P in H. change (rdot (rsub P (rpoint O D (B2R pos))) (rsub P (rpoint O D (B2R pos)))) with (rdist2 P (rpoint O D (B2R pos))) in H.
    assert (NN := sqlen_nonneg _ (proj1 H)). destruct H as (FH & H). apply Rabs_le_inv in H. split; [|lra]. split; [exact FH|]. apply Rabs_le. lra.
Qed.
End Ray.
Lemma dist_sq : forall a b, rdist a b * rdist a b = rdist2 a b.
Proof. intros a b. unfold rdist. apply rnorm_sq. Qed.
Lemma ray_ok : forall (r : ray fl) (p : list fl) M, within M (ray_origin r) -> nearly_unit (ray_dir r) -> within M p -> 1 <= M -> 1000 * (M * M) <= Om ->
  exists t, let R := ray_values r in let q := rpoint (ray_origin R) (ray_dir R) t in 0 <= t /\ nearest (on_ray R) (values p) q
    /\ near (pd_position (ray_point_sqdist r p)) t (150 * (u * M)) /\ near (pd_distance (ray_point_sqdist r p)) (rdist2 (values p) q) (410 * (u * (M * M)))
    /\ pd_position (ray_point_dist r p) = pd_position (ray_point_sqdist r p) /\ distance_near (pd_distance (ray_point_dist r p)) (rdist (values p) q) (450 * (u * (M * M))).
Proof.
  intros [o d] p M Wo Nd Wp M1 MO. cbn [ray_origin ray_dir] in Wo, Nd. destruct (size_M M M1 MO) as (UM0 & _). destruct (u_small prec U20) as [U0 U1]. assert (UMM : 0 < u * (M * M)) by (apply Rmult_lt_0_compat; [lra|apply Rmult_lt_0_compat; lra]).
  destruct (ray_dist o d p M Wo Nd Wp M1 MO) as (T0 & NE & NP & ND & (X0 & XB)). eexists. cbv zeta. unfold ray_values. cbn [ray_origin ray_dir].
  split; [exact T0|]. split; [exact NE|]. split; [eapply near_le; [exact NP|lra]|]. split; [eapply near_le; [exact ND|lra]|]. split; [reflexivity|].
  unfold ray_point_dist, pd_sqrt. cbn [pd_distance]. rewrite <- dist_sq in ND. assert (RD := root _ _ _ _ ND X0 (sqrt_pos _) XB). destruct RD as (A & B & C & E). repeat (split; [assumption|]). split; (eapply Rle_trans; [eassumption|lra]).
Qed.
End FP.
