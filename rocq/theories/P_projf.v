(** Projections of points onto lines in machine arithmetic (C119). *)
From Coq Require Import ZArith Reals List Lia Lra Bool Psatz.
From Flocq Require Import Core BinarySingleNaN.
From Verif Require Import Ops M_scalar M_vec M_geom M_dist Inst_F S_vec S_geom S_dist S_rnd S_hit S_raybox S_distf S_projf P_ieee P_vec P_line P_fp P_fp4 P_hit P_hit2 P_tbox P_sphere P_lu P_raytri P_polyf P_distf.
Import ListNotations.
Local Open Scope R_scope.

Lemma Forall2_weaken : forall (P Q : R -> R -> Prop) a b, (forall x y, P x y -> Q x y) -> Forall2 P a b -> Forall2 Q a b.
Proof. intros P Q a b H. induction 1; constructor; auto. Qed.
(** ** The nearest point of a line in real arithmetic *)
Lemma foot : forall o d p, length o = length d -> length p = length d -> 0 < rdot d d -> let t := rdot (rsub p o) d / rdot d d in
  nearest (on_line (Ln o d)) p (rpoint o d t) /\ forall q, nearest (on_line (Ln o d)) p q -> q = rpoint o d t.
Proof.
  intros o d p L1 L2 N0 t. set (S := rdot (rsub p o) d) in *. set (N := rdot d d) in *.
  assert (G : forall x, rdist2 p (rpoint o d x) = rdist2 p (rpoint o d t) + (x - t) * (x - t) * N) by (intros x; rewrite !along by assumption; fold S N; unfold t; field; lra).
  assert (NE : nearest (on_line (Ln o d)) p (rpoint o d t)).
  { split; [exists t; reflexivity|]. intros q' (x & ->). cbn [ln_point ln_dir]. apply rdist_le. fold (rdist2 p (rpoint o d t)) (rdist2 p (rpoint o d x)). rewrite (G x). assert (0 <= (x - t) * (x - t) * N) by (apply Rmult_le_pos; [apply Rle_0_sqr|lra]). lra. }
  split; [exact NE|]. intros q ((x & ->) & LE). cbn [ln_point ln_dir] in *. assert (H := LE _ (proj1 NE)). cbn [ln_point ln_dir] in H.
  assert (K : rdist2 p (rpoint o d x) <= rdist2 p (rpoint o d t)) by (rewrite <- !dist_sq; apply Rmult_le_compat; auto; apply sqrt_pos). rewrite G in K.
  destruct (Req_dec x t) as [-> |NX]; [reflexivity|]. assert (0 < (x - t) * (x - t)) by (apply Rsqr_pos_lt; lra). assert (0 < (x - t) * (x - t) * N) by (apply Rmult_lt_0_compat; lra). lra.
Qed.

Section FP.
Variables prec emax : Z.
Context {Hprec : Prec_gt_0 prec} {Hmax : Prec_lt_emax prec emax}.
Notation fl := (binary_float prec emax).
Notation u := (unit_roundoff prec).
Notation Om := (bpow radix2 emax).
Hypothesis U20 : (20 <= prec)%Z.
Hypothesis E20 : (20 <= emax)%Z.

(** A computed point of the line at a computed distance *)
Lemma near_line : forall (o d : list fl) (s : fl) M t e, within M o -> nearly_unit d -> is_finite s = true -> 1 <= M -> 16384 * M <= Om -> Rabs (B2R s) <= 348 / 100 * M -> Rabs (B2R s - t) <= e ->
  let q := al_point_at_distance o d s in S_projf.point_near q (rpoint (values o) (values d) t) (u * (101 / 100 * M + 21 / 10 * Rabs (B2R s)) + 1001 / 1000 * e) /\ length q = 3%nat.
Proof.
  intros o d s M t e Wo Nd FS M1 MO BS HS q. destruct (P_hit2.point_near prec emax U20 E20 o d s M Wo Nd FS ltac:(lra) M1 MO) as (Lq & Fq & NQ). fold q in Lq, Fq, NQ. split; [|exact Lq]. split; [exact Fq|].
  destruct (unit_facts prec emax U20 d Nd) as (Bd & _). destruct (within3 prec emax M o Wo) as (o0 & o1 & o2 & Eo & _). assert (Ld := proj1 Nd). rewrite Eo in *. clearbody q. clear Eo. destruct d as [|d0 [|d1 [|d2 [|]]]]; try discriminate Ld.
  cbn [values map] in Bd. inversion Bd as [|? ? C1 Bd1]; subst. inversion Bd1 as [|? ? C2 Bd2]; subst. inversion Bd2 as [|? ? C3 _]; subst. unfold rpoint. cbn [values map rscale radd zip map2] in NQ |- *.
  inversion NQ as [|x0 ? Q1 ? N1 T1]; subst. inversion T1 as [|x1 ? Q2 ? N2 T2]; subst. inversion T2 as [|x2 ? Q3 ? N3 T3]; subst. inversion T3; subst.
  assert (G : forall (x : fl) a b k, near x (a + b * B2R s) k -> Rabs b <= 1001 / 1000 -> Rabs (B2R x - (a + t * b)) <= k + 1001 / 1000 * e).
  { intros x a b k (_ & N) Bb. replace (B2R x - (a + t * b)) with ((B2R x - (a + b * B2R s)) + b * (B2R s - t)) by ring. eapply Rle_trans; [apply Rabs_triang|]. apply Rplus_le_compat; [exact N|]. rewrite Rabs_mult. apply Rmult_le_compat; auto using Rabs_pos. }
  repeat (apply Forall2_cons; [apply G; assumption|]). apply Forall2_nil.
Qed.

Section Project.
Variables (o d p : list fl) (M : R).
Hypothesis (Wo : within M o) (Nd : nearly_unit d) (Wp : within M p) (M1 : 1 <= M) (MO : 16384 * (M * M) <= Om).
Let O := values o. Let D := values d. Let P := values p.
Let S := rdot (rsub P O) D. Let N := rdot D D. Let t := S / N.
Lemma project_near : near (al_distance_to_projected_point o d p) t (145 * (u * M)) /\ S_projf.point_near (al_project_point o d p) (rpoint O D t) (154 * (u * M))
  /\ nearest (on_line (Ln O D)) P (rpoint O D t) /\ (forall q, nearest (on_line (Ln O D)) P q -> q = rpoint O D t) /\ length (al_project_point o d p) = 3%nat.
Proof.
  assert (MM : 1 * M <= M * M) by (apply Rmult_le_compat_r; lra). assert (MO1 : 1000 * (M * M) <= Om) by lra. destruct (size_M prec emax U20 E20 M M1 MO1) as (UM0 & UE & MB & UM). destruct (u_small prec U20) as [U0 U1].
  destruct (scale_near prec emax U20 E20 o d p M Wo Nd Wp M1 MO1) as (FS & HS). destruct (dot_bound prec emax U20 o d p M Wo Nd Wp M1) as (HN & BS). destruct (lengths prec emax o d p M Wo Nd Wp) as (LO & LD & LP).
  fold O D P in HS, HN, BS, LO, LD, LP. fold S in HS, BS. fold N in HN. change (v_dot (v_sub p o) d) with (al_distance_to_projected_point o d p) in FS, HS. set (s := al_distance_to_projected_point o d p) in *. apply Rabs_le_inv in HN.
  assert (TN : t * N = S) by (unfold t; field; lra). assert (TB : Rabs t <= 348 / 100 * M).
  { apply Rmult_le_reg_r with N; [lra|]. rewrite <- (Rabs_pos_eq N) at 1 by lra. rewrite <- Rabs_mult, TN. assert (348 / 100 * M * (1 - 33 * u) <= 348 / 100 * M * N) by (apply Rmult_le_compat_l; lra). lra. }
  assert (TM : Rabs (S - t) <= 11485 / 100 * (u * M)). { rewrite <- TN. replace (t * N - t) with (t * (N - 1)) by ring. rewrite Rabs_mult. replace (11485 / 100 * (u * M)) with (348 / 100 * M * (11485 / 348 * u)) by field. apply Rmult_le_compat; auto using Rabs_pos. apply Rabs_le. lra. }
  assert (ST : Rabs (B2R s - t) <= 145 * (u * M)). { apply Rabs_le_inv in HS, TM. apply Rabs_le. lra. }
  assert (SB : Rabs (B2R s) <= 348 / 100 * M). { apply Rabs_le_inv in HS, BS. apply Rabs_le. lra. }
  split; [split; assumption|]. destruct (near_line o d s M t _ Wo Nd FS M1 ltac:(lra) SB ST) as ((FQ & NQ) & LQ).
  split; [split; [exact FQ|]; eapply Forall2_weaken; [|exact NQ]|]. { intros a b H. cbv beta in H. eapply Rle_trans; [exact H|]. assert (u * (101 / 100 * M + 21 / 10 * Rabs (B2R s)) <= u * (84 / 10 * M)) by (apply Rmult_le_compat_l; lra). lra. }
  destruct (foot O D P ltac:(congruence) ltac:(congruence) ltac:(fold N; lra)) as (N1 & N2). split; [exact N1|]. split; [exact N2|exact LQ].
Qed.
End Project.
Lemma project_ok : forall (l : M_geom.line fl) (p : list fl) M, within M (ln_point l) -> nearly_unit (ln_dir l) -> within M p -> 1 <= M -> 16384 * (M * M) <= Om ->
  exists q t, nearest (on_line (line_values l)) (values p) q /\ (forall q', nearest (on_line (line_values l)) (values p) q' -> q' = q) /\ q = rpoint (values (ln_point l)) (values (ln_dir l)) t
  /\ near (al_distance_to_projected_point (ln_point l) (ln_dir l) p) t (145 * (u * M)) /\ S_projf.point_near (al_project_point (ln_point l) (ln_dir l) p) q (154 * (u * M)).
Proof.
  intros [o d] p M Wo Nd Wp M1 MO. cbn [ln_point ln_dir] in *. destruct (project_near o d p M Wo Nd Wp M1 MO) as (A & B & C & E & _). eexists. eexists. split; [exact C|]. split; [exact E|]. split; [reflexivity|]. split; [exact A|exact B].
Qed.
Lemma dot_small : forall (a b d : list R) k, length a = 3%nat -> length b = 3%nat -> length d = 3%nat -> 0 <= k -> Forall2 (fun x y => Rabs (x - y) <= k) a b -> Forall (fun x => Rabs x <= 1001 / 1000) d -> Rabs (rdot (rsub a b) d) <= 31 / 10 * k.
Proof.
  intros a b d k La Lb Ld K F B. destruct a as [|a0 [|a1 [|a2 [|]]]]; try discriminate. destruct b as [|b0 [|b1 [|b2 [|]]]]; try discriminate. destruct d as [|d0 [|d1 [|d2 [|]]]]; try discriminate.
  inversion F as [|? ? ? ? F0 T0]; subst. inversion T0 as [|? ? ? ? F1 T1]; subst. inversion T1 as [|? ? ? ? F2 _]; subst. inversion B as [|? ? B0 C0]; subst. inversion C0 as [|? ? B1 C1]; subst. inversion C1 as [|? ? B2 _]; subst. cbn [rsub zip rdot].
  assert (G : forall x y, Rabs x <= k -> Rabs y <= 1001 / 1000 -> Rabs (x * y) <= k * (1001 / 1000)) by (intros x y X Y; rewrite Rabs_mult; apply Rmult_le_compat; auto using Rabs_pos).
  assert (G0 := Rabs_le_inv _ _ (G _ _ F0 B0)). assert (G1 := Rabs_le_inv _ _ (G _ _ F1 B1)). assert (G2 := Rabs_le_inv _ _ (G _ _ F2 B2)). apply Rabs_le. lra.
Qed.
(** The distance of a point of the line is found again. *)
Lemma round_trip : forall (l : M_geom.line fl) (s : fl) M, within M (ln_point l) -> nearly_unit (ln_dir l) -> is_finite s = true -> Rabs (B2R s) <= M -> 1 <= M -> 131072 * (M * M) <= Om ->
  near (al_distance_to_projected_point (ln_point l) (ln_dir l) (al_point_at_distance (ln_point l) (ln_dir l) s)) (B2R s) (106 * (u * M)).
Proof.
  intros [o d] s M Wo Nd FS BS M1 MO. cbn [ln_point ln_dir] in *. destruct (u_small prec U20) as [U0 U1]. assert (UM0 : 0 < u * M) by (apply Rmult_lt_0_compat; lra). assert (UM : u * M <= / 1000000 * M) by (apply Rmult_le_compat_r; lra). assert (MM : 1 * M <= M * M) by (apply Rmult_le_compat_r; lra).
  destruct (near_line o d s M (B2R s) 0 Wo Nd FS M1 ltac:(lra) ltac:(lra)) as ((FQ & NQ) & LQ); [rewrite Rminus_diag_eq by reflexivity; rewrite Rabs_R0; lra|]. set (q := al_point_at_distance o d s) in *.
  assert (NQ2 : Forall2 (fun a b => Rabs (a - b) <= 312 / 100 * (u * M)) (values q) (rpoint (values o) (values d) (B2R s))).
  { eapply Forall2_weaken; [|exact NQ]. intros a b H. cbv beta in H. eapply Rle_trans; [exact H|]. assert (u * (101 / 100 * M + 21 / 10 * Rabs (B2R s)) <= u * (312 / 100 * M)) by (apply Rmult_le_compat_l; lra). lra. }
  destruct (unit_facts prec emax U20 d Nd) as (Bd & HN & _). assert (LO : length (values o) = 3%nat) by (unfold values; rewrite map_length; apply Wo). assert (LD : length (values d) = 3%nat) by (unfold values; rewrite map_length; apply Nd). assert (LV : length (values q) = 3%nat) by (unfold values; now rewrite map_length).
  assert (WQ : within (21 / 10 * M) q).
  { split; [exact LQ|]. split; [exact FQ|]. destruct Wo as (_ & _ & Bo). clear - NQ2 Bd Bo LO LD BS UM M1. unfold rpoint in NQ2. revert NQ2 Bd Bo LO LD. generalize (values q), (values o), (values d). intros a b c F B C Lb Lc. destruct b as [|b0 [|b1 [|b2 [|]]]]; try discriminate. destruct c as [|c0 [|c1 [|c2 [|]]]]; try discriminate. cbn [rscale map radd zip] in F.
    inversion F as [|? ? ? ? F0 T0]; subst. inversion T0 as [|? ? ? ? F1 T1]; subst. inversion T1 as [|? ? ? ? F2 T2]; subst. inversion T2; subst. inversion B as [|? ? B0 X0]; subst. inversion X0 as [|? ? B1 X1]; subst. inversion X1 as [|? ? B2 _]; subst. inversion C as [|? ? C0 Y0]; subst. inversion Y0 as [|? ? C1 Y1]; subst. inversion Y1 as [|? ? C2 _]; subst.
    clear F B C X0 X1 Y0 Y1 T0 T1 T2; assert (G : forall x y z, Rabs (x - (y + B2R s * z)) <= 312 / 100 * (u * M) -> Rabs y <= M -> Rabs z <= 1001 / 1000 -> Rabs x <= 21 / 10 * M).
    { intros f g h X Y Z. assert (W : Rabs (B2R s * h) <= M * (1001 / 1000)) by (rewrite Rabs_mult; apply Rmult_le_compat; auto using Rabs_pos). apply Rabs_le_inv in X, Y, W. apply Rabs_le. lra. }
    repeat (apply Forall_cons; [eapply G; eassumption|]). apply Forall_nil. }
  assert (Wo2 : within (21 / 10 * M) o). { destruct Wo as (X1 & X2 & X3). split; [exact X1|]. split; [exact X2|]. eapply Forall_impl; [|exact X3]. intros x X. cbv beta in *. lra. }
  destruct (scale_near prec emax U20 E20 o d q (21 / 10 * M) Wo2 Nd WQ ltac:(lra) ltac:(lra)) as (FD & HD). change (v_dot (v_sub q o) d) with (al_distance_to_projected_point o d q) in FD, HD. split; [exact FD|].
  assert (E : rdot (rsub (values q) (values o)) (values d) = rdot (rsub (values q) (rpoint (values o) (values d) (B2R s))) (values d) + B2R s * rdot (values d) (values d)).
  { rewrite <- rdot_scale_l, <- rdot_add_l by len. f_equal. unfold rpoint. vext. ring. }
  rewrite E in HD. assert (LR : length (rpoint (values o) (values d) (B2R s)) = 3%nat) by (unfold rpoint; rewrite radd_length; rewrite ?rscale_length; congruence). assert (K := dot_small _ _ _ (312 / 100 * (u * M)) LV LR LD ltac:(lra) NQ2 Bd).
  assert (Q : Rabs (B2R s * (rdot (values d) (values d) - 1)) <= M * (33 * u)) by (rewrite Rabs_mult; apply Rmult_le_compat; auto using Rabs_pos). apply Rabs_le_inv in HD, K, Q. apply Rabs_le. lra.
Qed.
End FP.
