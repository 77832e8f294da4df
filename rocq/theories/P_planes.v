(** The intersection of two planes in machine arithmetic (C115). *)
From Coq Require Import ZArith Reals List Lia Lra Bool Psatz.
From Flocq Require Import Core BinarySingleNaN.
From Verif Require Import Ops M_scalar M_vec M_geom M_intersect Inst_F S_vec S_rnd S_hit S_planes P_ord P_ieee P_vec P_fp P_fp2 P_fp3 P_fp4 P_fp5 P_hit P_hit2 P_hit3 P_hit4 P_hit5 P_ft P_ft2 P_tri P_tri2 P_tbox P_sphere P_raytri.
Import ListNotations.
Local Open Scope R_scope.

Section FP.
Variables prec emax : Z.
Context {Hprec : Prec_gt_0 prec} {Hmax : Prec_lt_emax prec emax}.
Notation fl := (binary_float prec emax).
Notation u := (unit_roundoff prec).
Notation eta := (underflow_error prec emax).
Notation Om := (bpow radix2 emax).
Hypothesis U20 : (20 <= prec)%Z.
Hypothesis E20 : (20 <= emax)%Z.

(** Vectors whose squared length is at least 60000 roundings and that are short can be normalized. *)
Lemma moderate_of : forall a, 60000 * u <= rnorm a * rnorm a -> rnorm a <= 8 -> moderate emax a.
Proof.
  intros a HL HU. assert (N0 : 0 <= rnorm a) by apply sqrt_pos. assert (HM := Hmax). unfold Prec_lt_emax in HM. split.
  - apply Rnot_lt_le. intros K. set (k := bpow radix2 (4 - emax / 2)) in *. assert (K0 : 0 < k) by apply bpow_gt_0.
    assert (KK : k * k <= bpow radix2 (9 - emax)). { unfold k. rewrite <- bpow_plus. apply bpow_le. assert (D := Z_div_mod_eq_full emax 2). assert (M := Z.mod_pos_bound emax 2 eq_refl). lia. }
    assert (UL : bpow radix2 (9 - emax) <= 512 * u). { change 512 with (bpow radix2 9). unfold unit_roundoff. rewrite <- bpow_plus. apply bpow_le. lia. }
    assert (U0 := u_pos prec). nra.
  - apply Rle_trans with (1 := HU). change 8 with (bpow radix2 3). apply bpow_le. assert (10 <= emax / 2)%Z by (apply Z.div_le_lower_bound; lia). lia.
Qed.
(** Products with a normalized vector *)
Lemma unit_dot : forall (v : list fl) b, length v = 3%nat -> all_finite v -> moderate emax (values v) -> length b = 3%nat -> Forall (fun x => Rabs x <= 1001 / 1000) b ->
  Rabs (rdot (values (v_normalize v)) b - rdot (values v) b / rnorm (values v)) <= 25 * u.
Proof.
  intros v b Lv Fv MO Lb Bb. destruct (u_small prec U20) as [U0 U1]. destruct (eta_small prec emax E20) as [T0 TS].
  destruct (unit_of prec emax U20 v Lv Fv MO) as (_ & N). assert (CL : forall z, In z v -> Rabs (B2R z) <= rnorm (values v)) by (intros z Hz; apply component_le_norm; unfold values; now apply in_map).
  assert (R0 : 0 < rnorm (values v)) by (eapply Rlt_le_trans; [|apply (proj1 MO)]; apply bpow_gt_0). set (r := rnorm (values v)) in *. clearbody r. clear MO.
  assert (G : forall (x y : fl), Rabs (B2R y - B2R x / r) <= 8 * u * (Rabs (B2R x) / r) + eta -> Rabs (B2R x) <= r -> Rabs (B2R y - B2R x / r) <= 801 / 100 * u).
  { intros x y H K. eapply Rle_trans; [exact H|]. assert (Q : Rabs (B2R x) / r <= 1) by (apply Rmult_le_reg_r with r; [exact R0|]; unfold Rdiv; rewrite Rmult_assoc, Rinv_l by lra; lra). assert (8 * u * (Rabs (B2R x) / r) <= 8 * u * 1) by (apply Rmult_le_compat_l; lra). lra. }
  generalize dependent (v_normalize v). intros w N. destruct v as [|v1 [|v2 [|v3 [|]]]]; try discriminate. inversion N as [|? w1 ? ? N1 N']; subst. inversion N' as [|? w2 ? ? N2 N'']; subst. inversion N'' as [|? w3 ? ? N3 N3']; subst. inversion N3'; subst.
  apply G in N1; [|apply CL; cbn; tauto]. apply G in N2; [|apply CL; cbn; tauto]. apply G in N3; [|apply CL; cbn; tauto].
  destruct b as [|b1 [|b2 [|b3 [|]]]]; try discriminate Lb. unfold values. cbn [map rdot].
  assert (D := dotw [B2R w1 - B2R v1 / r; B2R w2 - B2R v2 / r; B2R w3 - B2R v3 / r] [b1; b2; b3] (801 / 100 * u) (1001 / 1000) eq_refl eq_refl ltac:(repeat (apply Forall_cons; [assumption|]); apply Forall_nil) Bb).
  cbn [rdot] in D. match goal with |- Rabs ?X <= _ => match type of D with Rabs ?Y <= _ => replace X with Y by (field; lra) end end. eapply Rle_trans; [exact D|lra].
Qed.
Lemma finite_not_nan : forall v : list fl, all_finite v -> v_is_nan v = false.
Proof. intros v F. unfold v_is_nan. induction F as [|x l Fx _ IH]; [reflexivity|]. cbn [existsb]. rewrite IH, orb_false_r. unfold M_scalar.is_nan. change (negb (Beqb x x) = false). rewrite Beqb_correct by assumption. now rewrite Req_bool_true. Qed.
Lemma nan_point : forall (o d : list fl) (s : fl), length o = 3%nat -> length d = 3%nat -> BinarySingleNaN.is_nan s = true -> v_is_nan (al_point_at_distance o d s) = true.
Proof.
  intros o d s Lo Ld N. destruct o as [|o1 [|o2 [|o3 [|]]]]; try discriminate. destruct d as [|d1 [|d2 [|d3 [|]]]]; try discriminate. destruct s; try discriminate N.
  unfold v_is_nan. cbn [al_point_at_distance v_add v_scale map2 map existsb]. apply orb_true_iff. left. destruct d1, o1; reflexivity.
Qed.

(** The products of the points of a line *)
Lemma along : forall (a d q : list fl) N sv D M, length a = 3%nat -> length d = 3%nat -> length q = 3%nat -> length N = 3%nat -> Forall (fun x => Rabs x <= 1001 / 1000) N ->
  Forall2 (fun (x : fl) y => near x y (u * (101 / 100 * (102 / 100 * M) + 21 / 10 * Rabs sv))) q (map2 (fun x y => x + y * sv) (values a) (values d)) -> 1 <= M ->
  Rabs (rdot (values q) N - D - (rdot (values a) N - D + sv * rdot (values d) N)) <= 31 / 10 * (u * M) + 64 / 10 * (u * Rabs sv).
Proof.
  intros a d q N sv D0 M La Ld Lq LN Bn NQ M1. destruct (u_small prec U20) as [U0 U1]. destruct a as [|a1 [|a2 [|a3 [|]]]]; try discriminate La. destruct d as [|e1 [|e2 [|e3 [|]]]]; try discriminate Ld. destruct q as [|q1 [|q2 [|q3 [|]]]]; try discriminate Lq. destruct N as [|n1 [|n2 [|n3 [|]]]]; try discriminate LN.
  unfold values in *. cbn [map map2] in *. inversion NQ as [|? ? ? ? (_ & H1) H']; subst. inversion H' as [|? ? ? ? (_ & H2) H'']; subst. inversion H'' as [|? ? ? ? (_ & H3) _]; subst. cbn [rdot].
  assert (D := dotw [B2R q1 - (B2R a1 + B2R e1 * sv); B2R q2 - (B2R a2 + B2R e2 * sv); B2R q3 - (B2R a3 + B2R e3 * sv)] [n1; n2; n3] _ (1001 / 1000) eq_refl eq_refl ltac:(repeat (apply Forall_cons; [eassumption|]); apply Forall_nil) Bn). cbn [rdot] in D.
  match goal with |- Rabs ?X <= _ => match type of D with Rabs ?Y <= _ => replace X with Y by ring end end. eapply Rle_trans; [exact D|]. assert (0 <= u * Rabs sv) by (apply Rmult_le_pos; [lra|apply Rabs_pos]). assert (0 < u * M) by nra. lra.
Qed.

Section Planes.
Variables (n m : list fl) (d1 d2 : fl) (M : R).
Hypothesis (Hn : nearly_unit n) (Hm : nearly_unit m) (F1 : is_finite d1 = true) (F2 : is_finite d2 = true) (B1 : Rabs (B2R d1) <= M) (B2 : Rabs (B2R d2) <= M) (M1 : 1 <= M) (MO : 32768 * M <= Om).
Let N := values n.
Let P := values m.
Let S := rnorm (rcross N P).
Let c := rdot N P.
Hypothesis HS : 100000 * (u * M) <= S * S.
Let a := pl_anchor (Pl d1 n).
Let w := pl_project_vector (Pl d1 n) m.

Lemma lens : length N = 3%nat /\ length P = 3%nat.
Proof. destruct Hn as (L & _), Hm as (L' & _). unfold N, P, values. now rewrite !map_length. Qed.
Lemma sizes : 0 < S /\ S <= 101 / 100 /\ 90000 * (u * M) <= S /\ u <= u * M /\ 0 < u * M.
Proof.
  destruct (u_small prec U20) as [U0 U1]. destruct lens as (LN & LP). assert (S0 : 0 <= S) by apply sqrt_pos. assert (UM : u <= u * M) by nra.
  assert (SS : S * S = rdot N N * rdot P P - c * c). { unfold S, c. rewrite <- lagrange by assumption. apply sqrt_sqrt, rdot_nonneg. }
  destruct (unit_facts prec emax U20 n Hn) as (_ & QN & _). destruct (unit_facts prec emax U20 m Hm) as (_ & QP & _). fold N in QN. fold P in QP. apply Rabs_le_inv in QN, QP.
  assert (S1 : S <= 101 / 100). { apply Rnot_lt_le. intros K. assert (0 <= c * c) by nra. assert (rdot N N * rdot P P <= 1001 / 1000 * (1001 / 1000)) by (apply Rmult_le_compat; try apply rdot_nonneg; lra). nra. }
  assert (S2 : 0 < S) by nra. split; [exact S2|]. split; [exact S1|]. split; [|lra]. apply Rmult_le_reg_r with S; [exact S2|]. nra.
Qed.
Lemma cosine : Rabs c <= 1003 / 1000.
Proof.
  destruct lens as (LN & LP). destruct (unit_facts prec emax U20 n Hn) as (_ & _ & NN). destruct (unit_facts prec emax U20 m Hm) as (_ & _ & NP). fold N in NN. fold P in NP. unfold c. eapply Rle_trans; [apply abs_dot_le; congruence|].
  rewrite Rabs_pos_eq in NN, NP by apply sqrt_pos. assert (0 <= rnorm N) by apply sqrt_pos. assert (0 <= rnorm P) by apply sqrt_pos. nra.
Qed.
(** The anchor of the first plane *)
Lemma anchor : within (102 / 100 * M) a /\ Forall2 (fun (x : fl) y => Rabs (B2R x - y) <= 102 / 100 * (u * M)) a (rscale (B2R d1) N).
Proof.
  destruct (u_small prec U20) as [U0 U1]. destruct (eta_small prec emax E20) as [T0 TS]. destruct sizes as (_ & _ & _ & UM & UM0).
  destruct (unit_facts prec emax U20 n Hn) as (Bn & _). destruct Hn as (Ln & Fn & _).
  assert (G : forall x : fl, is_finite x = true -> Rabs (B2R x) <= 1001 / 1000 -> near (o_mul x d1) (B2R d1 * B2R x) (102 / 100 * (u * M)) /\ Rabs (B2R d1 * B2R x) <= 1001 / 1000 * M).
  { intros x Fx Bx. split.
    - rewrite Rmult_comm. eapply near_le; [apply (near_mul prec emax x d1 (B2R x) (B2R d1) 0 0 (1001 / 1000) M); auto using near_exact; nra|]. nra.
    - rewrite Rabs_mult, (Rmult_comm (1001 / 1000)). apply Rmult_le_compat; auto using Rabs_pos. }
  assert (V : forall x : fl, is_finite x = true -> Rabs (B2R x) <= 1001 / 1000 -> is_finite (o_mul x d1) = true /\ Rabs (B2R (o_mul x d1)) <= 102 / 100 * M).
  { intros x Fx Bx. destruct (G x Fx Bx) as (K1 & K2). assert (K3 := near_val _ _ _ _ _ _ K1 K2). split; [apply K1|]. eapply Rle_trans; [exact K3|]. nra. }
  unfold a, N, pl_anchor. cbn [pl_normal pl_dist]. destruct n as [|x1 [|x2 [|x3 [|]]]]; try discriminate Ln.
  inversion Fn as [|? ? G1 Fn']; subst. inversion Fn' as [|? ? G2 Fn'']; subst. inversion Fn'' as [|? ? G3 _]; subst. unfold values in Bn. cbn [map] in Bn. inversion Bn as [|? ? C1 Bn']; subst. inversion Bn' as [|? ? C2 Bn'']; subst. inversion Bn'' as [|? ? C3 _]; subst.
  change (v_scale [x1; x2; x3] d1) with [o_mul x1 d1; o_mul x2 d1; o_mul x3 d1]. split.
  - split; [reflexivity|]. split; [repeat (apply Forall_cons; [refine (proj1 (V _ _ _)); assumption|]); apply Forall_nil|]. unfold values. cbn [map]. repeat (apply Forall_cons; [refine (proj2 (V _ _ _)); assumption|]); apply Forall_nil.
  - unfold values, rscale. cbn [map]. apply Forall2_cons; [exact (proj2 (proj1 (G _ G1 C1)))|]. apply Forall2_cons; [exact (proj2 (proj1 (G _ G2 C2)))|]. apply Forall2_cons; [exact (proj2 (proj1 (G _ G3 C3)))|]. apply Forall2_nil.
Qed.
Lemma anchor_on : Rabs (plane_distance (Pl d1 n) a) <= 37 * (u * M) /\ Rabs (plane_distance (Pl d2 m) a) <= 203 / 100 * M.
Proof.
  destruct (u_small prec U20) as [U0 U1]. destruct sizes as (_ & _ & _ & UM & UM0). destruct anchor as (_ & H). destruct lens as (LN & LP).
  destruct (unit_facts prec emax U20 n Hn) as (Bn & QN & NN). destruct (unit_facts prec emax U20 m Hm) as (Bm & _ & NP). fold N in QN, Bn, NN. fold P in Bm, NP. unfold plane_distance. cbn [pl_normal pl_dist]. fold N P.
  assert (CS := cosine).
  assert (NQ : forall Q, Forall (fun x => Rabs x <= 1001 / 1000) Q -> length Q = 3%nat -> Rabs (rdot (values a) Q - B2R d1 * rdot N Q) <= 307 / 100 * (u * M)).
  { intros Q BQ LQ. clear - H LN LQ BQ UM0. destruct N as [|n1 [|n2 [|n3 [|]]]]; try discriminate LN. destruct Q as [|q1 [|q2 [|q3 [|]]]]; try discriminate LQ. unfold rscale in H. cbn [map] in H.
    inversion H as [|a1 ? ? ? H1 H' E]; subst. inversion H' as [|a2 ? ? ? H2 H'']; subst. inversion H'' as [|a3 ? ? ? H3 H3']; subst. inversion H3'; subst. unfold values. cbn [map rdot].
    assert (D := dotw [B2R a1 - B2R d1 * n1; B2R a2 - B2R d1 * n2; B2R a3 - B2R d1 * n3] [q1; q2; q3] _ (1001 / 1000) eq_refl eq_refl ltac:(repeat (apply Forall_cons; [eassumption|]); apply Forall_nil) BQ). cbn [rdot] in D.
    match goal with |- Rabs ?X <= _ => match type of D with Rabs ?Y <= _ => replace X with Y by ring end end. eapply Rle_trans; [exact D|lra]. }
  split.
  - assert (K := NQ N Bn LN). assert (L : Rabs (B2R d1 * (rdot N N - 1)) <= M * (33 * u)) by (rewrite Rabs_mult; apply Rmult_le_compat; auto using Rabs_pos). apply Rabs_le_inv in K, L. apply Rabs_le. lra.
  - assert (K := NQ P Bm LP). fold c in K. assert (L : Rabs (B2R d1 * c) <= M * (1003 / 1000)) by (rewrite Rabs_mult; apply Rmult_le_compat; auto using Rabs_pos). apply Rabs_le_inv in K, L. assert (B2' := Rabs_le_inv _ _ B2). assert (u * M <= / 1000000 * M) by (apply Rmult_le_compat_r; lra). apply Rabs_le. lra.
Qed.
(** The projection of the second normal onto the first plane *)
Lemma project : length w = 3%nat /\ all_finite w /\ Forall2 (fun (x : fl) y => Rabs (B2R x - y) <= 100 * (u * M)) w (map2 (fun x y => x - c * y) P N).
Proof.
  destruct (u_small prec U20) as [U0 U1]. destruct (eta_small prec emax E20) as [T0 TS]. destruct sizes as (_ & _ & _ & UM & UM0). assert (UMM : u * M <= / 1000000 * M) by (apply Rmult_le_compat_r; lra). assert (UUM : u * (u * M) <= / 1000000 * (u * M)) by (apply Rmult_le_compat_r; lra).
  destruct anchor as (Wa & _). destruct anchor_on as (AO & _). set (x := v_add a m). 
  assert (HX : within (203 / 100 * M) x /\ Forall2 (fun (t : fl) y => Rabs (B2R t - y) <= 203 / 100 * (u * M)) x (radd (values a) P)).
  { destruct (unit_facts prec emax U20 m Hm) as (Bm & _). destruct Hm as (Lm & Fm & _). unfold x, P. destruct (within3 prec emax _ a Wa) as (a1 & a2 & a3 & -> & (E1 & E2 & E3) & (D1 & D2 & D3)).
    destruct m as [|x1 [|x2 [|x3 [|]]]]; try discriminate Lm. inversion Fm as [|? ? G1 Fn']; subst. inversion Fn' as [|? ? G2 Fn'']; subst. inversion Fn'' as [|? ? G3 _]; subst. unfold values in Bm. cbn [map] in Bm. inversion Bm as [|? ? C1 Bn']; subst. inversion Bn' as [|? ? C2 Bn'']; subst. inversion Bn'' as [|? ? C3 _]; subst.
    assert (G : forall p q : fl, is_finite p = true -> is_finite q = true -> Rabs (B2R p) <= 102 / 100 * M -> Rabs (B2R q) <= 1001 / 1000 -> near (o_add p q) (B2R p + B2R q) (203 / 100 * (u * M)) /\ Rabs (B2R (o_add p q)) <= 203 / 100 * M).
    { intros p q Fp Fq Bp Bq. assert (Z : Rabs (B2R p + B2R q) <= 2022 / 1000 * M) by (apply Rabs_le_inv in Bp, Bq; apply Rabs_le; lra).
      assert (K : near (o_add p q) (B2R p + B2R q) (203 / 100 * (u * M))) by (eapply near_le; [apply (near_add prec emax p q _ _ 0 0 _ (near_exact prec emax p Fp) (near_exact prec emax q Fq) Z); nra|]; nra).
      split; [exact K|]. assert (K2 := near_val _ _ _ _ _ _ K Z). lra. }
    change (v_add [a1; a2; a3] [x1; x2; x3]) with [o_add a1 x1; o_add a2 x2; o_add a3 x3]. destruct (G _ _ E1 G1 D1 C1) as (K1 & L1). destruct (G _ _ E2 G2 D2 C2) as (K2 & L2). destruct (G _ _ E3 G3 D3 C3) as (K3 & L3). split.
    - split; [reflexivity|]. split; [apply Forall_cons; [apply K1|]; apply Forall_cons; [apply K2|]; apply Forall_cons; [apply K3|]; apply Forall_nil|]. unfold values. cbn [map]. repeat (apply Forall_cons; [assumption|]). apply Forall_nil.
    - unfold values, radd. cbn [map map2]. apply Forall2_cons; [exact (proj2 K1)|]. apply Forall2_cons; [exact (proj2 K2)|]. apply Forall2_cons; [exact (proj2 K3)|]. apply Forall2_nil. }
  destruct HX as (Wx & Dx). destruct (project_ok prec emax U20 E20 (Pl d1 n) x (203 / 100 * M) Hn Wx F1 ltac:(cbn [pl_dist]; lra) ltac:(lra) ltac:(lra)) as (Wq & Dq & _). cbn [pl_normal] in Dq. change (values n) with N in Dq.
  change w with (v_sub (pl_project_point (Pl d1 n) x) a). generalize dependent (pl_project_point (Pl d1 n) x). intros q Wq Dq.
  assert (PX : Rabs (plane_distance (Pl d1 n) x - c) <= 432 / 10 * (u * M)).
  { destruct (unit_facts prec emax U20 n Hn) as (Bn & _). destruct lens as (LN & LP). unfold plane_distance in AO |- *. cbn [pl_normal pl_dist] in AO |- *. fold N in AO, Bn |- *. unfold c. destruct Wx as (Lx & _). destruct Wa as (La & _). clear - Dx Bn LN LP AO Lx La UM0.
    destruct N as [|n1 [|n2 [|n3 [|]]]]; try discriminate LN. destruct P as [|p1 [|p2 [|p3 [|]]]]; try discriminate LP. destruct x as [|x1 [|x2 [|x3 [|]]]]; try discriminate Lx. destruct a as [|a1 [|a2 [|a3 [|]]]]; try discriminate La.
    unfold values, radd in Dx. cbn [map map2] in Dx. inversion Dx as [|? ? ? ? H1 H']; subst. inversion H' as [|? ? ? ? H2 H'']; subst. inversion H'' as [|? ? ? ? H3 _]; subst. unfold values in *. cbn [map rdot] in *.
    assert (D := dotw [B2R x1 - (B2R a1 + p1); B2R x2 - (B2R a2 + p2); B2R x3 - (B2R a3 + p3)] [n1; n2; n3] _ (1001 / 1000) eq_refl eq_refl ltac:(repeat (apply Forall_cons; [eassumption|]); apply Forall_nil) Bn). cbn [rdot] in D. apply Rabs_le_inv in D, AO. apply Rabs_le. lra. }
  set (k := plane_distance (Pl d1 n) x) in *. clearbody k. 
  destruct (unit_facts prec emax U20 n Hn) as (Bn & _ & NN). destruct (unit_facts prec emax U20 m Hm) as (Bm & _ & NP). fold N in Bn, NN. fold P in Bm, NP. destruct lens as (LN & LP).
  assert (CS := cosine).
  assert (G : forall (q' a' x' : fl) n' p', is_finite q' = true -> is_finite a' = true -> Rabs n' <= 1001 / 1000 -> Rabs p' <= 1001 / 1000 -> Rabs (B2R x' - (B2R a' + p')) <= 203 / 100 * (u * M) -> Rabs (B2R q' - (B2R x' - k * n')) <= 24 * (u * (203 / 100 * M)) ->
     near (o_sub q' a') (p' - c * n') (100 * (u * M))).
  { intros q' a' x' n' p' Fq Fa Bn' Bp' D1 D2. assert (KC : Rabs ((k - c) * n') <= 432 / 10 * (u * M) * (1001 / 1000)) by (rewrite Rabs_mult; apply Rmult_le_compat; auto using Rabs_pos). assert (CN : Rabs (c * n') <= 1003 / 1000 * (1001 / 1000)) by (rewrite Rabs_mult; apply Rmult_le_compat; auto using Rabs_pos).
    apply Rabs_le_inv in D1, D2, KC, CN, Bp'. assert (Z : Rabs (B2R q' - B2R a' - (p' - c * n')) <= 941 / 10 * (u * M)) by (apply Rabs_le; lra).
    assert (Y : Rabs (B2R q' - B2R a') <= 3 * M) by (apply Rabs_le_inv in Z; apply Rabs_le; lra).
    destruct (near_sub prec emax q' a' _ _ 0 0 _ (near_exact prec emax q' Fq) (near_exact prec emax a' Fa) Y) as (FS & VS); [nra|]. split; [exact FS|].
    apply Rabs_le_inv in Z, VS. apply Rabs_le. lra. }
  destruct Wx as (Lx & _). destruct (within3 prec emax _ a Wa) as (a1 & a2 & a3 & Ea & (E1 & E2 & E3) & _). destruct (within3 prec emax _ q Wq) as (q1 & q2 & q3 & Eq & (K1 & K2 & K3) & _). rewrite Ea, Eq in *.
  clear - G Dx Dq LN LP Lx Bn Bm E1 E2 E3 K1 K2 K3. destruct N as [|n1 [|n2 [|n3 [|]]]]; try discriminate LN. destruct P as [|p1 [|p2 [|p3 [|]]]]; try discriminate LP. destruct x as [|x1 [|x2 [|x3 [|]]]]; try discriminate Lx.
  unfold values, radd in Dx. cbn [map map2] in Dx. inversion Dx as [|? ? ? ? H1 H']; subst. inversion H' as [|? ? ? ? H2 H'']; subst. inversion H'' as [|? ? ? ? H3 _]; subst.
  unfold values in Dq. cbn [map map2] in Dq. inversion Dq as [|? ? ? ? I1 I']; subst. inversion I' as [|? ? ? ? I2 I'']; subst. inversion I'' as [|? ? ? ? I3 _]; subst.
  inversion Bn as [|? ? C1 Bn']; subst. inversion Bn' as [|? ? C2 Bn'']; subst. inversion Bn'' as [|? ? C3 _]; subst. inversion Bm as [|? ? D1 Bm']; subst. inversion Bm' as [|? ? D2 Bm'']; subst. inversion Bm'' as [|? ? D3 _]; subst.
  assert (R1 := G _ _ _ _ _ K1 E1 C1 D1 H1 I1). assert (R2 := G _ _ _ _ _ K2 E2 C2 D2 H2 I2). assert (R3 := G _ _ _ _ _ K3 E3 C3 D3 H3 I3).
  change (v_sub [q1; q2; q3] [a1; a2; a3]) with [o_sub q1 a1; o_sub q2 a2; o_sub q3 a3]. split; [reflexivity|]. split; [apply Forall_cons; [apply R1|]; apply Forall_cons; [apply R2|]; apply Forall_cons; [apply R3|]; apply Forall_nil|].
  cbn [map2]. apply Forall2_cons; [exact (proj2 R1)|]. apply Forall2_cons; [exact (proj2 R2)|]. apply Forall2_cons; [exact (proj2 R3)|]. apply Forall2_nil.
Qed.
(** The projection is about as long as the sine of the angle. *)
Lemma size : Rabs (rnorm (values w) - S) <= 335 * (u * M) /\ moderate emax (values w).
Proof.
  destruct (u_small prec U20) as [U0 U1]. destruct sizes as (S0 & S1 & S2 & UM & UM0). destruct project as (Lw & Fw & Dw). destruct lens as (LN & LP). destruct (unit_facts prec emax U20 n Hn) as (_ & QN & _). destruct (unit_facts prec emax U20 m Hm) as (_ & QP & _). fold N in QN. fold P in QP.
  assert (UMM : u * M <= / 1000000 * M) by (apply Rmult_le_compat_r; lra).
  set (W := map2 (fun x y => x - c * y) P N) in *. assert (SS : S * S = rdot N N * rdot P P - c * c). { unfold S, c. rewrite <- lagrange by assumption. apply sqrt_sqrt, rdot_nonneg. }
  assert (WW : rdot W W = rdot P P - c * c * (2 - rdot N N)). { unfold W, c. clear - LN LP. destruct N as [|n1 [|n2 [|n3 [|]]]]; try discriminate LN. destruct P as [|p1 [|p2 [|p3 [|]]]]; try discriminate LP. cbn [map2 rdot]. ring. }
  assert (RR : rnorm W * rnorm W = rdot W W) by (apply sqrt_sqrt, rdot_nonneg). set (r := rnorm W) in *. assert (R0 : 0 <= r) by apply sqrt_pos.
  assert (E : r * r - S * S = (1 - rdot N N) * (S * S + rdot P P * (1 - rdot N N))) by (rewrite RR, WW, SS; ring).
  set (t := 1 - rdot N N) in *. assert (T1 : Rabs t <= 33 * u) by (unfold t; replace (1 - rdot N N) with (- (rdot N N - 1)) by ring; rewrite Rabs_Ropp; exact QN).
  assert (PP : Rabs (rdot P P) <= 11 / 10) by (apply Rabs_le_inv in QP; apply Rabs_le; lra).
  assert (PT : Rabs (rdot P P * t) <= 11 / 10 * (33 * u)) by (rewrite Rabs_mult; apply Rmult_le_compat; auto using Rabs_pos).
  assert (SSL : 100000 * u <= S * S) by lra. 
  assert (E1 : Rabs (r * r - S * S) <= 33 * u * (1001 / 1000 * (S * S))). { rewrite E, Rabs_mult. apply Rmult_le_compat; auto using Rabs_pos. apply Rabs_le_inv in PT. apply Rabs_le. lra. }
  assert (E2 : Rabs (r - S) <= 34 * (u * S)).
  { replace (r * r - S * S) with ((r - S) * (r + S)) in E1 by ring. rewrite Rabs_mult, (Rabs_pos_eq (r + S)) in E1 by lra. apply Rmult_le_reg_r with S; [exact S0|]. apply Rle_trans with (Rabs (r - S) * (r + S)); [apply Rmult_le_compat_l; [apply Rabs_pos|lra]|]. eapply Rle_trans; [exact E1|]. assert (0 <= u * (S * S)) by (apply Rmult_le_pos; nra). lra. }
  assert (NC : Rabs (rnorm (values w) - r) <= 300 * (u * M)).
  { assert (K := norm_close W (values w) 0 (100 * (u * M)) ltac:(lra) ltac:(lra)). fold r in K. assert (LW : length W = 3%nat) by (unfold W; clear - LN LP; destruct N as [|n1 [|n2 [|n3 [|]]]]; try discriminate LN; destruct P as [|p1 [|p2 [|p3 [|]]]]; try discriminate LP; reflexivity).
    eapply Rle_trans; [apply K|rewrite LW; cbn [INR]; lra]. clear - Dw. unfold values. induction Dw as [|x y ? ? H _ IH]; [apply Forall2_nil|]. cbn [map]. apply Forall2_cons; [|exact IH]. lra. }
  assert (US : u * S <= u * (101 / 100)) by (apply Rmult_le_compat_l; lra).
  assert (D : Rabs (rnorm (values w) - S) <= 335 * (u * M)) by (apply Rabs_le_inv in NC, E2; apply Rabs_le; lra).
  split; [exact D|]. apply moderate_of; [|apply Rabs_le_inv in D; lra]. apply Rabs_le_inv in D. assert (B : 99 / 100 * S <= rnorm (values w)) by lra. assert (99 / 100 * S * (99 / 100 * S) <= rnorm (values w) * rnorm (values w)) by (apply Rmult_le_compat; lra). lra.
Qed.
Lemma quotient : forall x k, Rabs x <= k -> Rabs (x / rnorm (values w)) <= 1005 / 1000 * (k / S).
Proof.
  intros x k H. destruct (u_small prec U20) as [U0 U1]. destruct sizes as (S0 & S1 & S2 & UM & UM0). destruct size as (D & _). apply Rabs_le_inv in D. set (r := rnorm (values w)) in *. assert (R0 : 996 / 1000 * S <= r) by lra. assert (R1 : 0 < r) by lra.
  unfold Rdiv at 1. rewrite Rabs_mult, (Rabs_pos_eq (/ r)) by (apply Rlt_le, Rinv_0_lt_compat; exact R1). assert (K0 : 0 <= k) by (eapply Rle_trans; [apply Rabs_pos|exact H]).
  assert (I : / r <= 1005 / 1000 * / S). { apply Rmult_le_reg_r with (r * S); [apply Rmult_lt_0_compat; assumption|]. replace (/ r * (r * S)) with S by (field; lra). replace (1005 / 1000 * / S * (r * S)) with (1005 / 1000 * r) by (field; lra). lra. }
  replace (1005 / 1000 * (k / S)) with (k * (1005 / 1000 * / S)) by (field; lra). apply Rmult_le_compat; auto using Rabs_pos. apply Rlt_le, Rinv_0_lt_compat; exact R1.
Qed.
Let d := v_normalize w.
Lemma ratios : u <= 101 / 100 * (u * M / S) /\ u * M <= 101 / 100 * (u * M / S) /\ u * M / S <= / 100000 * S /\ 0 < u * M / S.
Proof.
  destruct (u_small prec U20) as [U0 U1]. destruct sizes as (S0 & S1 & S2 & UM & UM0). assert (Q0 : 0 < u * M / S) by (apply Rdiv_lt_0_compat; assumption). assert (Q : u * M = u * M / S * S) by (field; lra). set (z := u * M / S) in *.
  assert (Z1 : z * S <= z * (101 / 100)) by (apply Rmult_le_compat_l; lra). split; [lra|]. split; [lra|]. split; [|exact Q0]. apply Rmult_le_reg_r with S; [exact S0|]. rewrite <- Q. lra.
Qed.
Lemma direction : nearly_unit d /\ Rabs (rdot (values d) N) <= 370 * (u * M / S) /\ Rabs (rdot (values d) P - S) <= 750 * (u * M / S).
Proof.
  destruct (u_small prec U20) as [U0 U1]. destruct sizes as (S0 & S1 & S2 & UM & UM0). destruct ratios as (Z1 & Z2 & Z3 & Z0). destruct size as (D & MW). destruct project as (Lw & Fw & Dw). destruct lens as (LN & LP). destruct (unit_facts prec emax U20 n Hn) as (Bn & QN & _). destruct (unit_facts prec emax U20 m Hm) as (Bm & QP & _). fold N in QN, Bn. fold P in QP, Bm.
  assert (UMM : u * M <= / 1000000 * M) by (apply Rmult_le_compat_r; lra).
  assert (NQ : forall Q, Forall (fun x => Rabs x <= 1001 / 1000) Q -> length Q = 3%nat -> Rabs (rdot (values w) Q - (rdot P Q - c * rdot N Q)) <= 301 * (u * M)).
  { intros Q BQ LQ. clear - Dw LN LP LQ BQ UM0. generalize dependent c. intros c' Dw. destruct N as [|n1 [|n2 [|n3 [|]]]]; try discriminate LN. destruct P as [|p1 [|p2 [|p3 [|]]]]; try discriminate LP. destruct Q as [|q1 [|q2 [|q3 [|]]]]; try discriminate LQ. cbn [map2] in Dw.
    inversion Dw as [|a1 ? ? ? H1 H' E]; subst. inversion H' as [|a2 ? ? ? H2 H'']; subst. inversion H'' as [|a3 ? ? ? H3 H3']; subst. inversion H3'; subst. unfold values. cbn [map rdot].
    assert (D := dotw [B2R a1 - (p1 - c' * n1); B2R a2 - (p2 - c' * n2); B2R a3 - (p3 - c' * n3)] [q1; q2; q3] _ (1001 / 1000) eq_refl eq_refl ltac:(repeat (apply Forall_cons; [eassumption|]); apply Forall_nil) BQ). cbn [rdot] in D.
    match goal with |- Rabs ?X <= _ => match type of D with Rabs ?Y <= _ => replace X with Y by ring end end. eapply Rle_trans; [exact D|lra]. }
  destruct (unit_of prec emax U20 w Lw Fw MW) as (NU & _). split; [exact NU|]. assert (CS := cosine). split.
  - assert (G := unit_dot w N Lw Fw MW LN Bn). fold d in G. assert (K := NQ N Bn LN). assert (PN : rdot P N = c) by (unfold c; apply rdot_comm). rewrite PN in K.
    assert (CN : Rabs (c * (rdot N N - 1)) <= 1003 / 1000 * (33 * u)) by (rewrite Rabs_mult; apply Rmult_le_compat; auto using Rabs_pos). apply Rabs_le_inv in K, CN.
    assert (W : Rabs (rdot (values w) N) <= 335 * (u * M)) by (apply Rabs_le; lra). apply quotient in W. replace (335 * (u * M) / S) with (335 * (u * M / S)) in W by (field; lra). apply Rabs_le_inv in W, G. apply Rabs_le. lra.
  - assert (G := unit_dot w P Lw Fw MW LP Bm). fold d in G. assert (K := NQ P Bm LP). fold c in K.
    assert (SS : S * S = rdot N N * rdot P P - c * c). { unfold S, c. rewrite <- lagrange by assumption. apply sqrt_sqrt, rdot_nonneg. }
    assert (PQ : Rabs (rdot P P * (rdot N N - 1)) <= 1001 / 1000 * (33 * u)) by (rewrite Rabs_mult; apply Rmult_le_compat; auto using Rabs_pos; apply Rabs_le_inv in QP; apply Rabs_le; lra). apply Rabs_le_inv in K, PQ.
    set (r := rnorm (values w)) in *. assert (R0 : 0 < r) by (apply Rabs_le_inv in D; lra).
    assert (W : Rabs (rdot (values w) P - S * S) <= 335 * (u * M)) by (apply Rabs_le; lra). assert (V : Rabs (S * (S - r)) <= S * (335 * (u * M))) by (rewrite Rabs_mult, (Rabs_pos_eq S) by lra; apply Rmult_le_compat_l; [lra|]; apply Rabs_le_inv in D; apply Rabs_le; lra).
    apply quotient in W, V. fold r in W, V. replace (335 * (u * M) / S) with (335 * (u * M / S)) in W by (field; lra). replace (S * (335 * (u * M)) / S) with (335 * (u * M)) in V by (field; lra).
    replace (rdot (values d) P - S) with ((rdot (values d) P - rdot (values w) P / r) + ((rdot (values w) P - S * S) / r + S * (S - r) / r)) by (field; lra). apply Rabs_le_inv in G, W, V. apply Rabs_le. lra.
Qed.
(** The direction of the line *)
Let ld := v_normalize (v_cross n m).
Lemma line_direction : nearly_unit ld /\ Rabs (rdot (values ld) N) <= 50 * (u / S) /\ Rabs (rdot (values ld) P) <= 50 * (u / S).
Proof.
  destruct (u_small prec U20) as [U0 U1]. assert (OM := om_big emax E20). destruct sizes as (S0 & S1 & S2 & UM & UM0). destruct lens as (LN & LP). destruct (unit_facts prec emax U20 n Hn) as (Bn & QN & _). destruct (unit_facts prec emax U20 m Hm) as (Bm & QP & _). fold N in QN, Bn. fold P in QP, Bm.
  assert (CK := cross_k prec emax U20 E20 0 0 (1001 / 1000) (1001 / 1000) n m N P (dir_k prec emax U20 n Hn) (dir_k prec emax U20 m Hm) ltac:(lra) ltac:(lra) ltac:(lra) ltac:(lra) ltac:(lra)).
  destruct CK as (Lc & LC & NC & _). set (v := v_cross n m) in *. set (C := rcross N P) in *.
  assert (DC : Forall2 (fun (x : fl) y => is_finite x = true /\ Rabs (B2R x - y) <= 61 / 10 * u) v C). { clear - NC U0. induction NC as [|x y ? ? (F & H) _ IH]; [apply Forall2_nil|]. apply Forall2_cons; [|exact IH]. split; [exact F|]. eapply Rle_trans; [exact H|lra]. }
  assert (Fv : all_finite v) by (clear - DC; induction DC as [|? ? ? ? H _ IH]; [apply Forall_nil|]; apply Forall_cons; [apply H|exact IH]).
  assert (NS : Rabs (rnorm (values v) - S) <= 183 / 10 * u). { assert (K := norm_close C (values v) 0 (61 / 10 * u) ltac:(lra) ltac:(lra)). change (rnorm C) with S in K. eapply Rle_trans; [apply K|rewrite LC; cbn [INR]; lra]. clear - DC. unfold values. induction DC as [|x y ? ? H _ IH]; [apply Forall2_nil|]. cbn [map]. apply Forall2_cons; [|exact IH]. lra. }
  apply Rabs_le_inv in NS. assert (R0 : 996 / 1000 * S <= rnorm (values v)) by lra.
  assert (MV : moderate emax (values v)). { apply moderate_of; [|lra]. assert (996 / 1000 * S * (996 / 1000 * S) <= rnorm (values v) * rnorm (values v)) by (apply Rmult_le_compat; lra). lra. }
  destruct (unit_of prec emax U20 v Lc Fv MV) as (NU & _). split; [exact NU|].
  assert (G : forall Q, Forall (fun x => Rabs x <= 1001 / 1000) Q -> length Q = 3%nat -> rdot C Q = 0 -> Rabs (rdot (values ld) Q) <= 50 * (u / S)).
  { intros Q BQ LQ Z. assert (G := unit_dot v Q Lc Fv MV LQ BQ). fold ld in G. assert (W : Rabs (rdot (values v) Q) <= 184 / 10 * u).
    { clear - DC LC LQ BQ Z U0. revert LC DC Z. generalize C v. intros C' v' LC DC Z. destruct C' as [|n1 [|n2 [|n3 [|]]]]; try discriminate LC. destruct Q as [|q1 [|q2 [|q3 [|]]]]; try discriminate LQ.
      inversion DC as [|a1 ? ? ? (_ & H1) H' E]; subst. inversion H' as [|a2 ? ? ? (_ & H2) H'']; subst. inversion H'' as [|a3 ? ? ? (_ & H3) H3']; subst. inversion H3'; subst. unfold values. cbn [map rdot] in *.
      assert (D := dotw [B2R a1 - n1; B2R a2 - n2; B2R a3 - n3] [q1; q2; q3] _ (1001 / 1000) eq_refl eq_refl ltac:(repeat (apply Forall_cons; [eassumption|]); apply Forall_nil) BQ). cbn [rdot] in D. apply Rabs_le_inv in D. apply Rabs_le. lra. }
    set (r := rnorm (values v)) in *. assert (R1 : 0 < r) by lra. assert (US : u <= 101 / 100 * (u / S)). { assert (Q1 : u = u / S * S) by (field; lra). assert (Q0 : 0 < u / S) by (apply Rdiv_lt_0_compat; lra). set (z := u / S) in *. assert (Z1 : z * S <= z * (101 / 100)) by (apply Rmult_le_compat_l; lra). lra. }
    assert (V : Rabs (rdot (values v) Q / r) <= 1005 / 1000 * (184 / 10 * (u / S))).
    { unfold Rdiv at 1. rewrite Rabs_mult, (Rabs_pos_eq (/ r)) by (apply Rlt_le, Rinv_0_lt_compat; exact R1).
      assert (I : / r <= 1005 / 1000 * / S). { apply Rmult_le_reg_r with (r * S); [apply Rmult_lt_0_compat; assumption|]. replace (/ r * (r * S)) with S by (field; lra). replace (1005 / 1000 * / S * (r * S)) with (1005 / 1000 * r) by (field; lra). lra. }
      replace (1005 / 1000 * (184 / 10 * (u / S))) with (184 / 10 * u * (1005 / 1000 * / S)) by (field; lra). apply Rmult_le_compat; auto using Rabs_pos. apply Rlt_le, Rinv_0_lt_compat; exact R1. }
    apply Rabs_le_inv in G, V. apply Rabs_le. lra. }
  split; apply G; auto; unfold C; clear - LN LP; destruct N as [|n1 [|n2 [|n3 [|]]]]; try discriminate LN; destruct P as [|p1 [|p2 [|p3 [|]]]]; try discriminate LP; cbn [rcross rdot nth]; ring.
Qed.
Let l := intersect_plane_plane (Pl d1 n) (Pl d2 m).
Let s := intersect_line_plane (Ln a d) (Pl d2 m).
Let q := al_point_at_distance a d s.
Lemma unfold_line : is_finite s = true /\ l = Ln q ld /\ all_finite q \/ BinarySingleNaN.is_nan s = true /\ l = ln_default 3.
Proof.
  assert (OM := om_big emax E20). destruct line_direction as ((_ & FL & _) & _). destruct direction as (NU & _). destruct anchor as (Wa & _).
  destruct (line_plane_iff prec emax U20 E20 a d (Pl d2 m) (102 / 100 * M) NU Hm Wa F2 ltac:(cbn [pl_dist]; lra) ltac:(lra) ltac:(lra)) as (FN & _). fold s in FN.
  assert (E : l = if v_is_nan ld then ln_default 3 else if v_is_nan q then ln_default 3 else Ln q ld) by reflexivity. rewrite finite_not_nan in E by exact FL. destruct FN as [F|F].
  - left. destruct (line_plane_hit prec emax U20 E20 a d (Pl d2 m) (102 / 100 * M) NU Hm Wa F2 ltac:(cbn [pl_dist]; lra) ltac:(lra) ltac:(lra) F) as (_ & _ & _ & FQ & _). fold s q in FQ. rewrite finite_not_nan in E by exact FQ. auto.
  - right. split; [exact F|]. unfold q in E. rewrite nan_point in E; [exact E|apply Wa|apply NU|exact F].
Qed.
Lemma planes : l = ln_default 3 /\ S <= / 900 \/ / 1100 <= S /\ nearly_unit (ln_dir l) /\ Rabs (rdot (values (ln_dir l)) N) <= 50 * (u / S) /\ Rabs (rdot (values (ln_dir l)) P) <= 50 * (u / S)
  /\ length (ln_point l) = 3%nat /\ all_finite (ln_point l) /\ Rabs (plane_distance (Pl d1 n) (ln_point l)) <= 850 * (u * (M * M) / (S * S)) /\ Rabs (plane_distance (Pl d2 m) (ln_point l)) <= 120 * (u * M / S).
Proof.
  destruct (u_small prec U20) as [U0 U1]. destruct sizes as (S0 & S1 & S2 & UM & UM0). destruct ratios as (Z1 & Z2 & Z3 & Z0). destruct (az_near prec emax U20 E20) as (_ & AZ). apply Rabs_le_inv in AZ.
  destruct direction as (NU & DN & DP). destruct anchor as (Wa & _). destruct anchor_on as (AO1 & AO2). destruct line_direction as (LU & LN1 & LP1).
  destruct (line_plane_iff prec emax U20 E20 a d (Pl d2 m) (102 / 100 * M) NU Hm Wa F2 ltac:(cbn [pl_dist]; lra) ltac:(lra) ltac:(lra)) as (_ & I1 & I2). fold s in I1, I2. cbn [pl_normal] in I1, I2. fold P in I1, I2. set (e := rdot (values d) P) in *. apply Rabs_le_inv in DP. rewrite (Rabs_pos_eq e) in I1, I2 by lra.
  destruct unfold_line as [(F & -> & FQ)|(F & ->)]; [right|left].
  - cbn [ln_dir ln_point]. assert (E1 := I1 F). split; [lra|]. split; [exact LU|]. split; [exact LN1|]. split; [exact LP1|].
    destruct (line_plane_hit prec emax U20 E20 a d (Pl d2 m) (102 / 100 * M) NU Hm Wa F2 ltac:(cbn [pl_dist]; lra) ltac:(lra) ltac:(lra) F) as (B0 & HH & Lq & _ & HP). fold s q in Lq, HP, HH, B0. cbn [pl_normal] in HH. fold P e in HH. split; [exact Lq|]. split; [exact FQ|].
    destruct (point_near prec emax U20 E20 a d s (102 / 100 * M) Wa NU F B0 ltac:(lra) ltac:(lra)) as (_ & _ & NQ). fold q in NQ.
    set (sv := B2R s) in *. assert (UMM : u * M <= / 1000000 * M) by (apply Rmult_le_compat_r; lra).
    assert (SB : Rabs sv <= 205 / 100 * (M / S)).
    { assert (K : Rabs sv * e <= 2031 / 1000 * M + 11 * (u * Rabs sv)). { rewrite <- (Rabs_pos_eq e) by lra. rewrite <- Rabs_mult. replace (sv * e) with ((sv * e + plane_distance (Pl d2 m) a) - plane_distance (Pl d2 m) a) by ring. eapply Rle_trans; [apply Rabs_triang|]. rewrite Rabs_Ropp. lra. }
      assert (A0 := Rabs_pos sv). assert (K1 : Rabs sv * (992 / 1000 * S) <= Rabs sv * (e - 11 * u)) by (apply Rmult_le_compat_l; lra). apply Rmult_le_reg_r with S; [exact S0|]. replace (205 / 100 * (M / S) * S) with (205 / 100 * M) by (field; lra). lra. }
    assert (US : u * Rabs sv <= 205 / 100 * (u * M / S)). { replace (205 / 100 * (u * M / S)) with (u * (205 / 100 * (M / S))) by (field; lra). apply Rmult_le_compat_l; lra. }
    split.
    + set (z := u * (M * M) / (S * S)). assert (Y : u * M / S <= 101 / 100 * z). { replace (101 / 100 * z) with (u * M / S * (101 / 100 * M / S)) by (unfold z; field; lra). rewrite <- (Rmult_1_r (u * M / S)) at 1. apply Rmult_le_compat_l; [lra|]. apply Rmult_le_reg_r with S; [exact S0|]. replace (101 / 100 * M / S * S) with (101 / 100 * M) by (field; lra). lra. }
      assert (SD : Rabs (sv * rdot (values d) N) <= 205 / 100 * 370 * z). { rewrite Rabs_mult. replace (205 / 100 * 370 * z) with (205 / 100 * (M / S) * (370 * (u * M / S))) by (unfold z; field; lra). apply Rmult_le_compat; auto using Rabs_pos. }
      assert (K : Rabs (plane_distance (Pl d1 n) q - (plane_distance (Pl d1 n) a + sv * rdot (values d) N)) <= 31 / 10 * (u * M) + 64 / 10 * (u * Rabs sv)).
      { destruct (unit_facts prec emax U20 n Hn) as (Bn & _). destruct lens as (LN & LP). unfold plane_distance. cbn [pl_normal pl_dist]. fold N in Bn |- *. destruct Wa as (La & _). destruct NU as (Ld & _). exact (along a d q N sv (B2R d1) M La Ld Lq LN Bn NQ M1). }
      apply Rabs_le_inv in K, SD, AO1. apply Rabs_le. lra.
    + eapply Rle_trans; [exact HP|]. lra.
  - split; [reflexivity|]. apply Rnot_lt_le. intros K. assert (X : is_finite s = true) by (apply I2; lra). destruct s; discriminate.
Qed.
End Planes.
Lemma planes_ok : forall (p1 p2 : plane fl) M, nearly_unit (pl_normal p1) -> nearly_unit (pl_normal p2) -> is_finite (pl_dist p1) = true -> is_finite (pl_dist p2) = true -> Rabs (B2R (pl_dist p1)) <= M -> Rabs (B2R (pl_dist p2)) <= M -> 1 <= M -> 32768 * M <= Om ->
  let S := angle_sine p1 p2 in let l := intersect_plane_plane p1 p2 in 100000 * (u * M) <= S * S ->
  l = ln_default 3 /\ S <= / 900
  \/ / 1100 <= S /\ nearly_unit (ln_dir l) /\ Rabs (rdot (values (ln_dir l)) (values (pl_normal p1))) <= 50 * (u / S) /\ Rabs (rdot (values (ln_dir l)) (values (pl_normal p2))) <= 50 * (u / S)
     /\ length (ln_point l) = 3%nat /\ all_finite (ln_point l) /\ Rabs (plane_distance p1 (ln_point l)) <= 850 * (u * (M * M) / (S * S)) /\ Rabs (plane_distance p2 (ln_point l)) <= 120 * (u * M / S).
Proof. intros [d1 n] [d2 m] M H1 H2 F1 F2 B1 B2 M1 MO S l HS. exact (planes n m d1 d2 M H1 H2 F1 F2 B1 B2 M1 MO HS). Qed.
End FP.
