(** The missing coordinate of a point of a plane in machine arithmetic (C120). *)
From Coq Require Import ZArith Reals List Lia Lra Bool Psatz.
From Flocq Require Import Core BinarySingleNaN.
From Verif Require Import Ops M_scalar M_vec M_geom Inst_F S_vec S_geom S_rnd S_hit S_polygon S_raypoly P_ieee P_vec P_plane P_fp P_fp4 P_hit P_hit2 P_tbox P_distf P_ft.
Import ListNotations.
Local Open Scope R_scope.

Section FP.
Variables prec emax : Z.
Context {Hprec : Prec_gt_0 prec} {Hmax : Prec_lt_emax prec emax}.
Notation fl := (binary_float prec emax).
Notation u := (unit_roundoff prec).
Notation eta := (underflow_error prec emax).
Notation Om := (bpow radix2 emax).
Hypothesis U20 : (20 <= prec)%Z.
Hypothesis E20 : (20 <= emax)%Z.

Lemma at_core : forall (c x y z a b : fl) M, is_finite c = true -> is_finite x = true -> is_finite y = true -> is_finite a = true -> is_finite b = true ->
  Rabs (B2R c) <= M -> Rabs (B2R x) <= 1001 / 1000 -> Rabs (B2R y) <= 1001 / 1000 -> Rabs (B2R z) <= 1001 / 1000 -> Rabs (B2R a) <= M -> Rabs (B2R b) <= M -> 1 <= M -> B2R z <> 0 -> 8 * M <= Rabs (B2R z) * Om ->
  near (o_div (o_sub c (o_add (o_add (cst 0) (o_mul x a)) (o_mul y b))) z) ((B2R c - (B2R x * B2R a + B2R y * B2R b)) / B2R z) (14 * (u * M) / Rabs (B2R z)).
Proof.
  intros c x y z a b M Fc Fx Fy Fa Fb Bc Bx By Bz Ba Bb M1 NZ HO. destruct (u_small prec U20) as [U0 U1]. destruct (eta_small prec emax E20) as [E0 E1]. assert (OB := om_big emax E20). set (k := Rabs (B2R z)) in *. assert (K0 : 0 < k) by (apply Rabs_pos_lt; exact NZ).
  assert (OM : 7 * M <= Om). { assert (k * Om <= 1001 / 1000 * Om) by (apply Rmult_le_compat_r; lra). lra. }
  assert (UM0 : 0 < u * M) by (apply Rmult_lt_0_compat; lra). assert (UM : u * M <= / 1000000 * M) by (apply Rmult_le_compat_r; lra). assert (UE : eta <= / 1000 * (u * M)). { assert (u * 1 <= u * M) by (apply Rmult_le_compat_l; lra). lra. }
  destruct (F_cst0 prec emax) as [F0 V0]. assert (N0 := near_exact prec emax _ F0). rewrite V0 in N0.
  assert (PB : forall v w : fl, Rabs (B2R v) <= 1001 / 1000 -> Rabs (B2R w) <= M -> Rabs (B2R v * B2R w) <= 1001 / 1000 * M) by (intros v w V W; rewrite Rabs_mult; apply Rmult_le_compat; auto using Rabs_pos).
  assert (MU : forall v w : fl, is_finite v = true -> is_finite w = true -> Rabs (B2R v) <= 1001 / 1000 -> Rabs (B2R w) <= M -> near (o_mul v w) (B2R v * B2R w) (101 / 100 * (u * M))).
  { intros v w Fv Fw V W. eapply near_le; [apply (near_mul prec emax _ _ _ _ 0 0 _ _ (near_exact prec emax _ Fv) (near_exact prec emax _ Fw) V W)|]; rewrite ?Rmult_0_r, ?Rmult_0_l, ?Rplus_0_l, ?Rplus_0_r; [|lra].
    assert (1001 / 1000 * M * (1 + u) <= 1001 / 1000 * M * (1001 / 1000)) by (apply Rmult_le_compat_l; lra). lra. }
  assert (S1 : near (o_add (cst 0) (o_mul x a)) (0 + B2R x * B2R a) (21 / 10 * (u * M))).
  { eapply near_le; [apply (near_add prec emax _ _ _ _ _ _ (1001 / 1000 * M) N0 (MU x a Fx Fa Bx Ba)); [rewrite Rplus_0_l; auto|]|].
    - apply Rle_lt_trans with (102 / 100 * M * (1001 / 1000)); [apply Rmult_le_compat; lra|lra].
    - assert (u * (1001 / 1000 * M + 0 + 101 / 100 * (u * M)) <= u * (101 / 100 * M)) by (apply Rmult_le_compat_l; lra). lra. }
  assert (B2 : Rabs (0 + B2R x * B2R a + B2R y * B2R b) <= 2002 / 1000 * M). { assert (A1 := Rabs_le_inv _ _ (PB x a Bx Ba)). assert (A2 := Rabs_le_inv _ _ (PB y b By Bb)). apply Rabs_le. lra. }
  assert (S2 : near (o_add (o_add (cst 0) (o_mul x a)) (o_mul y b)) (0 + B2R x * B2R a + B2R y * B2R b) (52 / 10 * (u * M))).
  { eapply near_le; [apply (near_add prec emax _ _ _ _ _ _ (2002 / 1000 * M) S1 (MU y b Fy Fb By Bb) B2)|].
    - apply Rle_lt_trans with (21 / 10 * M * (1001 / 1000)); [apply Rmult_le_compat; lra|lra].
    - assert (u * (2002 / 1000 * M + 21 / 10 * (u * M) + 101 / 100 * (u * M)) <= u * (203 / 100 * M)) by (apply Rmult_le_compat_l; lra). lra. }
  set (g := B2R c - (B2R x * B2R a + B2R y * B2R b)). assert (BG : Rabs g <= 3002 / 1000 * M). { apply Rabs_le_inv in Bc. assert (A1 := Rabs_le_inv _ _ (PB x a Bx Ba)). assert (A2 := Rabs_le_inv _ _ (PB y b By Bb)). unfold g. apply Rabs_le. lra. }
  assert (S3 : near (o_sub c (o_add (o_add (cst 0) (o_mul x a)) (o_mul y b))) g (83 / 10 * (u * M))).
  { replace g with (B2R c - (0 + B2R x * B2R a + B2R y * B2R b)) in * by (unfold g; ring). eapply near_le; [apply (near_sub prec emax _ _ _ _ _ _ (3002 / 1000 * M) (near_exact prec emax _ Fc) S2 BG)|].
    - apply Rle_lt_trans with (31 / 10 * M * (1001 / 1000)); [apply Rmult_le_compat; lra|lra].
    - assert (u * (3002 / 1000 * M + 0 + 52 / 10 * (u * M)) <= u * (305 / 100 * M)) by (apply Rmult_le_compat_l; lra). lra. }
  set (w := o_sub c (o_add (o_add (cst 0) (o_mul x a)) (o_mul y b))) in *. clearbody w. destruct S3 as (FW & HW). assert (BW : Rabs (B2R w) <= 301 / 100 * M). { apply Rabs_le_inv in HW, BG. apply Rabs_le. lra. }
  assert (IK : 0 < / k) by (apply Rinv_0_lt_compat; exact K0). assert (QA : forall r, Rabs (r / B2R z) = Rabs r * / k) by (intros r; unfold Rdiv; rewrite Rabs_mult, Rabs_inv; reflexivity).
  assert (KI : M * / k * 8 <= Om). { apply Rmult_le_reg_r with k; [exact K0|]. replace (M * / k * 8 * k) with (8 * M) by (field; lra). lra. }
  assert (MK : 0 < M * / k) by (apply Rmult_lt_0_compat; lra). assert (QW : Rabs (B2R w / B2R z) <= 301 / 100 * (M * / k)). { rewrite QA. replace (301 / 100 * (M * / k)) with (301 / 100 * M * / k) by ring. apply Rmult_le_compat_r; lra. }
  destruct (div_ok prec emax w z FW NZ) as (FD & d & e & Hd & He & ED).
  { apply Rle_lt_trans with (301 / 100 * (M * / k) * (1001 / 1000) + eta); [apply Rplus_le_compat_r, Rmult_le_compat; auto using Rabs_pos; lra|lra]. }
  split; [exact FD|]. rewrite ED. replace (B2R w / B2R z * (1 + d) + e - g / B2R z) with ((B2R w - g) / B2R z + (B2R w / B2R z * d + e)) by (field; exact NZ).
  assert (P1 : Rabs ((B2R w - g) / B2R z) <= 83 / 10 * (u * M) * / k) by (rewrite QA; apply Rmult_le_compat_r; lra). assert (P2 : Rabs (B2R w / B2R z * d) <= 301 / 100 * (M * / k) * u) by (rewrite Rabs_mult; apply Rmult_le_compat; auto using Rabs_pos).
  assert (K9 : u * M <= 1001 / 1000 * (u * M * / k)). { apply Rmult_le_reg_r with k; [exact K0|]. replace (1001 / 1000 * (u * M * / k) * k) with (1001 / 1000 * (u * M)) by (field; lra). replace (1001 / 1000 * (u * M)) with (u * M * (1001 / 1000)) by ring. apply Rmult_le_compat_l; lra. }
  replace (14 * (u * M) / k) with (14 * (u * M * / k)) by (unfold Rdiv; ring). apply Rabs_le_inv in P1, P2, He. apply Rabs_le. lra.
Qed.
Lemma at_near : forall (p : plane fl) (a b : fl) axis M, nearly_unit (pl_normal p) -> is_finite (pl_dist p) = true -> Rabs (B2R (pl_dist p)) <= M -> is_finite a = true -> is_finite b = true -> Rabs (B2R a) <= M -> Rabs (B2R b) <= M -> 1 <= M -> (axis < 3)%nat ->
  let k := nth axis (values (pl_normal p)) 0 in let x := pl_at p [a; b] axis in
  (k <> 0 -> 8 * M <= Rabs k * Om -> exists t, (forall s, on_plane 3 (plane_values p) (insert axis s [B2R a; B2R b]) <-> s = t) /\ near x t (14 * (u * M) / Rabs k)
     /\ Rabs (rdot (insert axis (B2R x) [B2R a; B2R b]) (values (pl_normal p)) - B2R (pl_dist p)) <= 14 * (u * M))
  /\ (k = 0 -> is_finite x = true /\ B2R x = 0).
Proof.
  intros [c n] a b axis M Nn Fc Bc Fa Fb Ba Bb M1 AX k x. cbn [pl_normal pl_dist] in *. destruct (unit_facts prec emax U20 n Nn) as (Bn & _). destruct (F_cst0 prec emax) as [F0 V0]. assert (Ln := proj1 Nn). assert (Fn := proj1 (proj2 Nn)).
  assert (FK : is_finite (vget n axis) = true /\ B2R (vget n axis) = k). { unfold k. clear - Ln Fn AX. destruct n as [|x [|y [|z [|]]]]; try discriminate. unfold all_finite in Fn. inversion Fn as [|? ? F1 T1]; subst. inversion T1 as [|? ? F2 T2]; subst. inversion T2 as [|? ? F3 _]; subst. destruct axis as [|[|[|]]]; try lia; split; try assumption; reflexivity. }
  destruct FK as (FK & VK). assert (X : x = if o_eq (vget n axis) (cst 0) then cst 0 else o_div (o_sub c (pl_at_loop axis 0 n [a; b] (cst 0))) (vget n axis)) by reflexivity.
  change (o_eq (vget n axis) (cst 0)) with (Beqb (vget n axis) (cst 0)) in X. rewrite (Feq prec emax), V0, VK in X by assumption. clearbody x. split.
  2: { intros Z. rewrite Z in X. rewrite Req_bool_true in X by reflexivity. rewrite X. split; assumption. }
  intros NZ HO. rewrite Req_bool_false in X by exact NZ. assert (K0 : 0 < Rabs k) by (apply Rabs_pos_lt; exact NZ).
  assert (G : exists i j : fl, is_finite i = true /\ is_finite j = true /\ Rabs (B2R i) <= 1001 / 1000 /\ Rabs (B2R j) <= 1001 / 1000 /\ Rabs k <= 1001 / 1000
    /\ pl_at_loop axis 0 n [a; b] (cst 0) = o_add (o_add (cst 0) (o_mul i a)) (o_mul j b) /\ forall s, length (insert axis s [B2R a; B2R b]) = 3%nat /\ rdot (insert axis s [B2R a; B2R b]) (values n) = s * k + (B2R i * B2R a + B2R j * B2R b)).
  { unfold k in *. clear - Ln Fn Bn AX. destruct n as [|x [|y [|z [|]]]]; try discriminate. unfold all_finite in Fn. inversion Fn as [|? ? F1 T1]; subst. inversion T1 as [|? ? F2 T2]; subst. inversion T2 as [|? ? F3 _]; subst.
    cbn [values map] in Bn. inversion Bn as [|? ? B1 R1]; subst. inversion R1 as [|? ? B2 R2]; subst. inversion R2 as [|? ? B3 _]; subst.
    destruct axis as [|[|[|]]]; try lia; [exists y, z|exists x, z|exists x, y]; (repeat (split; [assumption|])); (split; [reflexivity|]); intros s; (split; [reflexivity|]); cbn; ring. }
  destruct G as (i & j & Fi & Fj & Bi & Bj & Bk & L & R). rewrite L in X. rewrite <- VK in NZ, Bk, HO. assert (H := at_core c i j (vget n axis) a b M Fc Fi Fj Fa Fb Bc Bi Bj Bk Ba Bb M1 NZ HO). rewrite <- X, VK in H. rewrite VK in NZ. set (t := (B2R c - (B2R i * B2R a + B2R j * B2R b)) / k) in *.
  assert (TK : t * k = B2R c - (B2R i * B2R a + B2R j * B2R b)) by (unfold t; field; exact NZ). exists t. split; [|split; [exact H|]].
  - intros s. unfold on_plane, plane_values. cbn [pl_normal pl_dist]. rewrite (proj2 (R s)). split.
    + intros (_ & E). apply Rmult_eq_reg_r with k; [|exact NZ]. rewrite TK. lra.
    + intros ->. split; [apply R|]. rewrite TK. ring.
  - rewrite (proj2 (R (B2R x))). replace (B2R x * k + (B2R i * B2R a + B2R j * B2R b) - B2R c) with ((B2R x - t) * k) by (rewrite Rmult_minus_distr_r, TK; ring). rewrite Rabs_mult. destruct H as (_ & H).
    apply Rle_trans with (14 * (u * M) / Rabs k * Rabs k); [apply Rmult_le_compat_r; [lra|exact H]|]. right. field. lra.
Qed.
End FP.
