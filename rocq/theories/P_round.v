(** IEEE behaviour of [round]: it is the nearest integer, ties away from zero, below 2^(prec-1)
    except at the two numbers next to 1/2 and -1/2. *)
From Coq Require Import ZArith Reals List Bool Lra Lia.
From Flocq Require Import Core BinarySingleNaN.
From Verif Require Import Ops M_scalar Inst_F P_ord P_ieee.
Local Open Scope R_scope.

Section F.
Variables prec emax : Z.
Context {Hprec : Prec_gt_0 prec} {Hmax : Prec_lt_emax prec emax}.
Hypothesis Hprec3 : (3 <= prec)%Z.
Notation fl := (binary_float prec emax).
Notation fexp := (SpecFloat.fexp prec emax).
Notation F := (generic_format radix2 fexp).
Notation rnd := (round radix2 fexp ZnearestE).
#[local] Existing Instance fexp_correct.

Lemma emax_gt : (prec < emax)%Z. Proof. exact Hmax. Qed.

(** In the binade [2^(m-1), 2^m) the numbers of the format are multiples of 2^(m-prec). *)
Lemma format_multiple : forall x m, F x -> bpow radix2 (m - 1) <= x < bpow radix2 m ->
  (3 - emax <= m)%Z -> exists k, x = IZR k * bpow radix2 (m - prec).
Proof.
  intros x m Fx Hx Hm.
  assert (P : 0 < x) by (apply Rlt_le_trans with (2 := proj1 Hx); apply bpow_gt_0).
  assert (M : mag radix2 x = m :> Z).
  { apply mag_unique. now rewrite Rabs_pos_eq by lra. }
  exists (Ztrunc (scaled_mantissa radix2 fexp x)).
  rewrite Fx at 1. unfold F2R, cexp, SpecFloat.fexp, SpecFloat.emin; cbn [Fnum Fexp]. rewrite M.
  do 2 f_equal. lia.
Qed.

Lemma format_up : forall k m, (0 <= k <= 2 ^ prec)%Z -> (3 - emax <= m)%Z ->
  F (IZR k * bpow radix2 (m - prec)).
Proof. intros k m Hk Hm. apply (fl_format prec emax); lia. Qed.

Lemma bpowZ : forall e, (0 <= e)%Z -> bpow radix2 e = IZR (2 ^ e).
Proof. intros e He. now rewrite <- (IZR_Zpower radix2). Qed.

Lemma floor_round_half : forall x, F x -> 0 <= x < bpow radix2 (prec - 1) ->
  x <> / 2 - bpow radix2 (-1 - prec) ->
  Zfloor (rnd (x + / 2)) = Zfloor (x + / 2).
Proof.
  intros x Fx Hx Nx. generalize emax_gt; intros M.
  set (n := Zfloor (x + / 2)).
  assert (L : IZR n <= x + / 2) by apply Zfloor_lb.
  assert (U : x + / 2 < IZR n + 1) by apply Zfloor_ub.
  assert (N0 : (0 <= n)%Z) by (apply Zfloor_lub; lra).
  assert (Bn : (n <= 2 ^ (prec - 1))%Z).
  { apply le_IZR. rewrite <- bpowZ by lia. 
    assert (n < 2 ^ (prec - 1) + 1)%Z; [ | rewrite bpowZ by lia; apply IZR_le; lia ].
    apply lt_IZR. rewrite plus_IZR, <- bpowZ by lia. lra. }
  assert (P2 : (2 ^ prec = 2 * 2 ^ (prec - 1))%Z).
  { replace prec with (1 + (prec - 1))%Z at 1 by ring. rewrite Z.pow_add_r by lia. reflexivity. }
  assert (P3 : (4 <= 2 ^ (prec - 1))%Z) by (change 4%Z with (2 ^ 2)%Z; apply Z.pow_le_mono_r; lia).
  assert (Ln : IZR n <= rnd (x + / 2)).
  { rewrite <- (round_generic radix2 fexp ZnearestE (IZR n)).
    - apply round_le; auto with typeclass_instances.
    - apply (IZR_format prec emax). lia. }
  apply Zfloor_imp. split; [ exact Ln | ]. rewrite plus_IZR.
  (* a number of the format between x + 1/2 and n + 1 *)
  assert (E : exists u, F u /\ x + / 2 <= u < IZR n + 1).
  { destruct (Z.eq_dec n 0) as [Z0|NZ].
    - rewrite Z0 in *. rewrite Rplus_0_l in U |- *.
      assert (K : x <= / 2 - bpow radix2 (- prec)).
      { destruct (Rle_or_lt (bpow radix2 (-1 - 1)) x) as [Q|Q].
        - destruct (format_multiple x (-1) Fx) as [k Hk].
          + split; auto. change (bpow radix2 (-1)) with (/2). lra.
          + lia.
          + rewrite Hk in U, Nx |- *.
            assert (H2 : / 2 = IZR (2 ^ prec) * bpow radix2 (-1 - prec)).
            { rewrite <- bpowZ by lia. rewrite <- bpow_plus. replace (prec + (-1 - prec))%Z with (-1)%Z by ring. reflexivity. }
            assert (G := bpow_gt_0 radix2 (-1 - prec)).
            assert (k < 2 ^ prec)%Z.
            { apply lt_IZR. apply Rmult_lt_reg_r with (1 := G). lra. }
            assert (k <> 2 ^ prec - 1)%Z.
            { intros ->. apply Nx. rewrite minus_IZR. lra. }
            assert (K : (k <= 2 ^ prec - 2)%Z) by lia.
            apply IZR_le in K. rewrite minus_IZR in K.
            replace (- prec)%Z with (1 + (-1 - prec))%Z by ring. rewrite bpow_plus.
            change (bpow radix2 1) with 2.
            apply Rmult_le_compat_r with (r := bpow radix2 (-1 - prec)) in K; lra.
        - change (bpow radix2 (-1 - 1)) with (/ 4) in Q.
          assert (bpow radix2 (- prec) <= bpow radix2 (-2)) by (apply bpow_le; lia).
          change (bpow radix2 (-2)) with (/ 4) in H. lra. }
      exists (1 - bpow radix2 (- prec)). split.
      + replace (1 - bpow radix2 (- prec)) with (IZR (2 ^ prec - 1) * bpow radix2 (0 - prec)).
        * apply format_up; lia.
        * rewrite minus_IZR, <- bpowZ by lia. rewrite Rmult_minus_distr_r, <- bpow_plus.
          replace (prec + (0 - prec))%Z with 0%Z by ring. rewrite Rmult_1_l. reflexivity.
      + split; [ lra | ]. generalize (bpow_gt_0 radix2 (- prec)). lra.
    - assert (N1 : (1 <= n)%Z) by lia. clear N0 NZ.
      destruct (Z.eq_dec n (2 ^ (prec - 1))) as [Et|Nt].
      { exists (IZR n). split; [ apply (IZR_format prec emax); lia | ].
        (* then x + 1/2 = n is impossible or fine *)
        split; [ | lra ].
        rewrite Et, <- bpowZ in L |- * by lia.
        (* x in [2^(p-1) - 1/2, 2^(p-1)) is a multiple of 1/2 *)
        destruct (format_multiple x (prec - 1) Fx) as [k Hk].
        - split; [ | lra ]. assert (bpow radix2 (prec - 1 - 1) + 1 <= bpow radix2 (prec - 1)); [ | lra ].
          rewrite !bpowZ by lia. rewrite <- plus_IZR. apply IZR_le.
          replace (2 ^ (prec - 1))%Z with (2 * 2 ^ (prec - 1 - 1))%Z.
          + assert (1 <= 2 ^ (prec - 1 - 1))%Z; [ | lia ].
            change 1%Z with (2 ^ 0)%Z at 1. apply Z.pow_le_mono_r; lia.
          + replace (prec - 1)%Z with (1 + (prec - 1 - 1))%Z at 2 by ring. rewrite Z.pow_add_r by lia. reflexivity.
        - lia.
        - replace (prec - 1 - prec)%Z with (-1)%Z in Hk by ring. change (bpow radix2 (-1)) with (/2) in Hk.
          rewrite Hk in *. rewrite bpowZ in * by lia.
          assert (k < 2 * 2 ^ (prec - 1))%Z by (apply lt_IZR; rewrite mult_IZR; lra).
          assert (K : (k <= 2 * 2 ^ (prec - 1) - 1)%Z) by lia. apply IZR_le in K.
          rewrite minus_IZR, mult_IZR in K. lra. }
      assert (Bn' : (n < 2 ^ (prec - 1))%Z) by lia.
      set (m := mag radix2 (IZR n) : Z).
      assert (Pn : 1 <= IZR n) by (now apply IZR_le).
      assert (Mn : bpow radix2 (m - 1) <= IZR n < bpow radix2 m).
      { generalize (bpow_mag_le radix2 (IZR n) ltac:(lra)) (bpow_mag_gt radix2 (IZR n)).
        rewrite Rabs_pos_eq by lra. fold m. auto. }
      assert (M1 : (1 <= m)%Z).
      { assert (0 < m)%Z; [ | lia ]. apply (lt_bpow radix2). simpl. lra. }
      assert (M2 : (m <= prec - 1)%Z).
      { assert (m - 1 < prec - 1)%Z; [ | lia ]. apply (lt_bpow radix2).
        apply Rle_lt_trans with (1 := proj1 Mn). rewrite bpowZ by lia. now apply IZR_lt. }
      assert (Nm : (n + 1 <= 2 ^ m)%Z).
      { assert (n < 2 ^ m)%Z; [ | lia ]. apply lt_IZR. rewrite <- bpowZ by lia. lra. }
      set (g := bpow radix2 (m - prec)).
      assert (Gp : 0 < g) by apply bpow_gt_0.
      assert (G2 : g <= / 2). { change (/ 2) with (bpow radix2 (-1)). apply bpow_le. lia. }
      assert (E1 : IZR 1 = IZR (2 ^ (prec - m)) * g).
      { unfold g. rewrite <- bpowZ by lia. rewrite <- bpow_plus.
        replace (prec - m + (m - prec))%Z with 0%Z by ring. reflexivity. }
      assert (E2 : / 2 = IZR (2 ^ (prec - m - 1)) * g).
      { unfold g. rewrite <- bpowZ by lia. rewrite <- bpow_plus.
        replace (prec - m - 1 + (m - prec))%Z with (-1)%Z by ring. reflexivity. }
      assert (K : x <= IZR n + / 2 - g).
      { destruct (Rle_or_lt (bpow radix2 (m - 1)) x) as [Q|Q].
        - destruct (format_multiple x m Fx) as [k Hk].
          + split; auto. apply Rlt_le_trans with (IZR n + 1); [ lra | ].
            rewrite bpowZ by lia. rewrite <- plus_IZR. now apply IZR_le.
          + lia.
          + fold g in Hk. rewrite Hk in U |- *.
            assert (En : IZR n + / 2 = IZR (n * 2 ^ (prec - m) + 2 ^ (prec - m - 1)) * g).
            { rewrite plus_IZR, mult_IZR, Rmult_plus_distr_r, <- E2, Rmult_assoc, <- E1. simpl. ring. }
            assert (k < n * 2 ^ (prec - m) + 2 ^ (prec - m - 1))%Z.
            { apply lt_IZR. apply Rmult_lt_reg_r with (1 := Gp). lra. }
            assert (K : (k <= n * 2 ^ (prec - m) + 2 ^ (prec - m - 1) - 1)%Z) by lia.
            rewrite En. apply IZR_le in K. rewrite minus_IZR in K.
            apply Rmult_le_compat_r with (r := g) in K; [ | lra ].
            rewrite Rmult_minus_distr_r in K. lra.
        - lra. }
      exists (IZR n + 1 - g). split; [ | lra ].
      replace (IZR n + 1 - g) with (IZR ((n + 1) * 2 ^ (prec - m) - 1) * g).
      + apply format_up; [ | lia ]. 
        assert (1 <= 2 ^ (prec - m))%Z.
        { change 1%Z with (2 ^ 0)%Z at 1. apply Z.pow_le_mono_r; lia. }
        assert (2 ^ prec = 2 ^ m * 2 ^ (prec - m))%Z.
        { rewrite <- Z.pow_add_r by lia. f_equal. ring. }
        nia.
      + rewrite minus_IZR, mult_IZR, Rmult_minus_distr_r, Rmult_assoc, <- E1, plus_IZR. simpl. ring. }
  destruct E as (u & Fu & Hu1 & Hu2).
  apply Rle_lt_trans with (2 := Hu2).
  rewrite <- (round_generic radix2 fexp ZnearestE u) by auto with typeclass_instances.
  apply round_le; auto with typeclass_instances.
Qed.

Lemma F_half : is_finite (lit 1 2 : fl) = true /\ B2R (lit 1 2 : fl) = / 2.
Proof.
  unfold lit.
  destruct (F_cst1 prec emax) as [F1 B1]. destruct (F_cst prec emax 2) as [F2 B2].
  { change (2 ^ 1 <= 2 ^ prec)%Z. apply Z.pow_le_mono_r; lia. }
  unfold cst in *.
  assert (H := Bdiv_correct prec emax Hprec Hmax mode_NE (o_of_Z 1) (o_of_Z 2)).
  rewrite B1, B2 in H. specialize (H ltac:(lra)).
  assert (G : F (1 / 2)).
  { replace (1 / 2) with (IZR 1 * bpow radix2 (-1)) by (simpl; lra). apply (fl_format prec emax).
    - generalize (prec_ge_1 prec Hprec). simpl. lia.
    - generalize emax_gt. lia. }
  rewrite round_generic in H by auto with typeclass_instances.
  rewrite Rlt_bool_true in H.
  - destruct H as (H1 & H2 & _). split; [ now rewrite <- F1, <- H2 | ]. etransitivity; [ apply H1 | lra ].
  - rewrite Rabs_pos_eq by lra. apply Rlt_le_trans with 1; [ lra | ].
    apply (bpow_le radix2 0). generalize emax_gt. lia.
Qed.

(** A sum with 1/2 stays in range. *)
Lemma rnd_half_bound : forall x, 0 <= x < bpow radix2 (prec - 1) ->
  0 <= rnd (x + / 2) <= bpow radix2 (prec - 1).
Proof.
  intros x Hx. split.
  - apply round_ge_generic; auto with typeclass_instances; [ apply generic_format_0 | lra ].
  - destruct (Rle_or_lt (x + / 2) (bpow radix2 (prec - 1))) as [H|H].
    + apply round_le_generic; auto with typeclass_instances.
      apply generic_format_bpow. generalize emax_gt. unfold SpecFloat.fexp, SpecFloat.emin. lia.
    + apply (round_N_le_midp radix2 fexp).
      * apply generic_format_bpow. generalize emax_gt. unfold SpecFloat.fexp, SpecFloat.emin. lia.
      * rewrite succ_eq_pos by apply bpow_ge_0. rewrite ulp_bpow.
        replace (fexp (prec - 1 + 1)) with 0%Z.
        2: { generalize emax_gt. unfold SpecFloat.fexp, SpecFloat.emin. lia. }
        simpl. lra.
Qed.

Lemma in_range : forall y, Rabs y <= bpow radix2 (prec - 1) -> (prec <= 63)%Z -> i64_range y.
Proof.
  intros y Hy P. unfold i64_range. apply Rabs_le_inv in Hy.
  assert (bpow radix2 (prec - 1) < bpow radix2 63) by (apply bpow_lt; lia). lra.
Qed.

(** Nearest integer, ties away from zero. *)
Definition Zround_away (x : R) : Z := if Rlt_bool 0 x then Zfloor (x + / 2) else Zceil (x - / 2).

Lemma F_round : forall x : fl, is_finite x = true -> (prec <= 63)%Z ->
  Rabs (B2R x) < bpow radix2 (prec - 1) ->
  Rabs (B2R x) <> / 2 - bpow radix2 (-1 - prec) ->
  exists r, sc_round x = Ret r /\ is_finite r = true /\ B2R r = IZR (Zround_away (B2R x)).
Proof.
  intros x Fx P63 Hx Nx. unfold sc_round, Zround_away.
  destruct (F_cst0 prec emax) as [F0 B0]. destruct F_half as [Fh Bh].
  change (o_lt (cst 0) x) with (Bltb (cst 0) x). rewrite Flt by auto. rewrite B0.
  assert (B : bpow radix2 (prec - 1) < bpow radix2 emax) by (apply bpow_lt; generalize emax_gt; lia).
  destruct (Rlt_bool_spec 0 (B2R x)) as [Pos|Neg].
  - rewrite Rabs_pos_eq in Hx, Nx by lra.
    destruct (rnd_half_bound (B2R x)) as [R1 R2]; [ lra | ].
    generalize (Bplus_correct prec emax Hprec Hmax mode_NE x (lit 1 2) Fx Fh).
    rewrite Bh. change (round_mode mode_NE) with ZnearestE.
    rewrite Rlt_bool_true by (rewrite Rabs_pos_eq; lra).
    intros (A1 & A2 & _).
    destruct (F_floor prec emax (o_add x (lit 1 2))) as (r & E & Fr & Br); auto.
    + apply in_range; auto. change (o_add x (lit 1 2)) with (Bplus mode_NE x (lit 1 2)); rewrite A1. rewrite Rabs_pos_eq; lra.
    + exists r. split; [ exact E | ]. split; auto. rewrite Br. f_equal.
      change (o_add x (lit 1 2)) with (Bplus mode_NE x (lit 1 2)); rewrite A1. apply floor_round_half; [ apply generic_format_B2R | lra | exact Nx ].
  - rewrite Rabs_left1 in Hx, Nx by lra.
    destruct (rnd_half_bound (- B2R x)) as [R1 R2]; [ lra | ].
    assert (Eo : rnd (B2R x - / 2) = - rnd (- B2R x + / 2)).
    { rewrite <- round_NE_opp. f_equal. ring. }
    generalize (Bminus_correct prec emax Hprec Hmax mode_NE x (lit 1 2) Fx Fh).
    rewrite Bh. change (round_mode mode_NE) with ZnearestE.
    rewrite Eo. rewrite Rabs_Ropp.
    rewrite Rlt_bool_true by (rewrite Rabs_pos_eq; lra).
    intros (A1 & A2 & _).
    destruct (F_ceil prec emax (o_sub x (lit 1 2))) as (r & E & Fr & Br); auto.
    + apply in_range; auto. change (o_sub x (lit 1 2)) with (Bminus mode_NE x (lit 1 2)); rewrite A1, Rabs_Ropp. rewrite Rabs_pos_eq; lra.
    + exists r. split; [ exact E | ]. split; auto. rewrite Br. f_equal.
      change (o_sub x (lit 1 2)) with (Bminus mode_NE x (lit 1 2)); rewrite A1. unfold Zceil. rewrite !Ropp_involutive.
      f_equal. replace (- (B2R x - / 2)) with (- B2R x + / 2) by ring.
      apply floor_round_half; [ apply generic_format_opp, generic_format_B2R | lra | exact Nx ].
Qed.

Lemma Zround_away_spec : forall x, exists z, Zround_away x = z /\ Rabs (x - IZR z) <= / 2
  /\ (forall z' : Z, Rabs (x - IZR z) <= Rabs (x - IZR z'))
  /\ (forall z' : Z, Rabs (x - IZR z) = Rabs (x - IZR z') -> Rabs (IZR z') <= Rabs (IZR z)).
Proof.
  intros x. eexists; split; [ reflexivity | ]. unfold Zround_away.
  destruct (Rlt_bool_spec 0 x) as [P|N].
  - generalize (Zfloor_lb (x + / 2)) (Zfloor_ub (x + / 2)). set (n := Zfloor _). intros L U.
    assert (N0 : (0 <= n)%Z) by (apply Zfloor_lub; lra).
    apply IZR_le in N0.
    split; [ apply Rabs_le; lra | ].
    assert (C : forall z', (z' = n \/ z' <= n - 1 \/ n + 1 <= z')%Z) by (intros; lia).
    split; intros z'; destruct (C z') as [->|[H|H]];
      try apply IZR_le in H; try rewrite minus_IZR in H; try rewrite plus_IZR in H;
      unfold Rabs; repeat destruct Rcase_abs; lra.
  - unfold Zceil. generalize (Zfloor_lb (- (x - / 2))) (Zfloor_ub (- (x - / 2))). set (n := Zfloor _). intros L U.
    assert (N0 : (0 <= n)%Z) by (apply Zfloor_lub; lra).
    apply IZR_le in N0. rewrite opp_IZR.
    split; [ apply Rabs_le; lra | ].
    assert (C : forall z', (z' = - n \/ z' <= - n - 1 \/ - n + 1 <= z')%Z) by (intros; lia).
    split; intros z'; destruct (C z') as [->|[H|H]];
      try apply IZR_le in H; try rewrite minus_IZR in H; try rewrite plus_IZR in H; rewrite ?opp_IZR in *;
      unfold Rabs; repeat destruct Rcase_abs; lra.
Qed.
End F.
