(** Snapping, remainders and angles on grids: the rounded quotient of two integers is on the same side of each half integer as the quotient. *)
From Coq Require Import ZArith Reals List Lia Lra Bool Psatz.
From Flocq Require Import Core BinarySingleNaN Relative.
From Verif Require Import Ops M_scalar M_vec Inst_F Inst_XR S_vec S_mat S_rnd S_grid P_ieee P_round P_xr P_scalar_xr P_vec P_fp P_grid P_grid3.
Import ListNotations.
Local Open Scope R_scope.

Section Grid.
Variables prec emax : Z.
Context {Hprec : Prec_gt_0 prec} {Hmax : Prec_lt_emax prec emax}.
Notation fl := (binary_float prec emax).
Notation rnd := (round radix2 (SpecFloat.fexp prec emax) (round_mode mode_NE)).
Notation fits := (representable prec emax).
Notation rel := (rel prec emax).
Hypothesis P3 : (3 <= prec <= 63)%Z.
Hypothesis EM : (prec + 2 <= emax)%Z.

Lemma bp2 : bpow radix2 prec = IZR (2 ^ prec).
Proof. change 2%Z with (radix_val radix2). rewrite (IZR_Zpower radix2); [reflexivity|lia]. Qed.
Lemma pow_half : (2 * 2 ^ (prec - 1) = 2 ^ prec)%Z.
Proof. rewrite <- Z.pow_succ_r by lia. f_equal. lia. Qed.
Lemma quot_error : forall k l, l <> 0%Z -> (Z.abs l < 2 ^ (prec - 1))%Z ->
  Rabs (rnd (IZR k / IZR l) - IZR k / IZR l) <= bpow radix2 (- prec) * Rabs (IZR k / IZR l).
Proof.
  intros k l Hl Bl. destruct (Z.eq_dec k 0) as [->|Hk].
  { unfold Rdiv. rewrite Rmult_0_l, round_0, Rminus_0_r, Rabs_R0 by apply valid_rnd_N. lra. }
  assert (N : bpow radix2 (3 - emax - prec + prec - 1) <= Rabs (IZR k / IZR l)).
  { unfold Rdiv. rewrite Rabs_mult, Rabs_inv. apply Rle_trans with (1 * / bpow radix2 prec).
    - rewrite Rmult_1_l, <- bpow_opp. apply bpow_le. lia.
    - assert (0 < Rabs (IZR l)) by (apply Rabs_pos_lt; now apply IZR_neq).
      apply Rmult_le_compat; try lra. { apply Rlt_le, Rinv_0_lt_compat, bpow_gt_0. }
      + rewrite <- abs_IZR. apply IZR_le. lia.
      + apply Rinv_le; auto. rewrite bp2, <- abs_IZR. apply IZR_le. assert (P := pow_half). lia. }
  generalize (relative_error_N_FLT radix2 (3 - emax - prec) prec Hprec (fun z => negb (Z.even z)) _ N).
  replace (/ 2 * bpow radix2 (- prec + 1)) with (bpow radix2 (- prec)).
  - intros H. exact H.
  - rewrite bpow_plus. change (bpow radix2 1) with 2. field.
Qed.
(** The quotient and the half integers *)
Lemma quot_order : forall k l m, l <> 0%Z -> (Z.abs l < 2 ^ (prec - 1))%Z -> (Z.abs k < 2 ^ (prec - 1))%Z -> (Z.abs m <= 2 ^ prec)%Z ->
  (IZR k / IZR l < IZR m / 2 -> rnd (IZR k / IZR l) < IZR m / 2) /\ (IZR m / 2 < IZR k / IZR l -> IZR m / 2 < rnd (IZR k / IZR l))
  /\ (IZR k / IZR l = IZR m / 2 -> rnd (IZR k / IZR l) = IZR m / 2).
Proof.
  intros k l m Hl Bl Bk Bm. assert (G : generic_format radix2 (SpecFloat.fexp prec emax) (IZR m / 2)).
  { replace (IZR m / 2) with (IZR m * bpow radix2 (-1)) by (change (bpow radix2 (-1)) with (/ 2); field). apply (fl_format prec emax); [exact Bm|lia]. }
  assert (E := quot_error k l Hl Bl). assert (P := pow_half).
  assert (L0 : 0 < Rabs (IZR l)) by (apply Rabs_pos_lt; now apply IZR_neq).
  assert (NE : rnd (IZR k / IZR l) = IZR m / 2 -> IZR k / IZR l = IZR m / 2).
  { intros Q. rewrite Q in E. assert (Z1 : (Z.abs (m * l - 2 * k) < 1)%Z).
    { apply lt_IZR. rewrite abs_IZR, minus_IZR, !mult_IZR. replace (IZR m * IZR l - 2 * IZR k) with ((IZR m / 2 - IZR k / IZR l) * (2 * IZR l)) by (field; now apply IZR_neq).
      rewrite Rabs_mult, (Rabs_mult 2), (Rabs_pos_eq 2) by lra.
      apply Rle_lt_trans with (bpow radix2 (- prec) * Rabs (IZR k / IZR l) * (2 * Rabs (IZR l))); [apply Rmult_le_compat_r; lra|].
      unfold Rdiv. rewrite Rabs_mult, Rabs_inv. replace (bpow radix2 (- prec) * (Rabs (IZR k) * / Rabs (IZR l)) * (2 * Rabs (IZR l))) with (bpow radix2 (- prec) * (2 * Rabs (IZR k))) by (field; lra).
      apply Rlt_le_trans with (bpow radix2 (- prec) * bpow radix2 prec); [|rewrite <- bpow_plus, Z.add_opp_diag_l; simpl; lra].
      apply Rmult_lt_compat_l; [apply bpow_gt_0|]. rewrite bp2, <- abs_IZR, <- mult_IZR. apply IZR_lt. lia. }
    assert (Z2 : (m * l = 2 * k)%Z) by lia. assert (Z3 : IZR m * IZR l = 2 * IZR k) by (rewrite <- !mult_IZR; now f_equal).
    apply (Rmult_eq_reg_r (2 * IZR l)); [|apply IZR_neq in Hl; lra]. replace (IZR k / IZR l * (2 * IZR l)) with (2 * IZR k) by (field; now apply IZR_neq). lra. }
  assert (Q := Rtotal_order (rnd (IZR k / IZR l)) (IZR m / 2)). split; [|split]; intros H.
  - assert (M : rnd (IZR k / IZR l) <= IZR m / 2) by (apply round_le_generic; [apply fexp_correct, Hprec|apply valid_rnd_N|exact G|lra]). destruct Q as [Q|[Q|Q]]; auto; [apply NE in Q|]; lra.
  - assert (M : IZR m / 2 <= rnd (IZR k / IZR l)) by (apply round_ge_generic; [apply fexp_correct, Hprec|apply valid_rnd_N|exact G|lra]). destruct Q as [Q|[Q|Q]]; auto; [|apply NE in Q]; lra.
  - rewrite H. apply round_generic; [apply valid_rnd_N|exact G].
Qed.
Lemma quot_size : forall k l z, l <> 0%Z -> (Z.abs k <= z)%Z -> Rabs (IZR k / IZR l) <= IZR z.
Proof.
  intros k l z Hl H. unfold Rdiv. rewrite Rabs_mult, Rabs_inv, <- !abs_IZR. assert (1 <= IZR (Z.abs l)) by (apply IZR_le; lia). apply IZR_le in H. assert (0 <= IZR (Z.abs k)) by (apply IZR_le; lia).
  apply Rle_trans with (IZR (Z.abs k) * 1); [|lra]. apply Rmult_le_compat_l; auto. rewrite <- Rinv_1. apply Rinv_le; lra.
Qed.
Lemma quot_floor : forall k l, l <> 0%Z -> (Z.abs l < 2 ^ (prec - 1))%Z -> (Z.abs k < 2 ^ (prec - 1))%Z ->
  Zfloor (rnd (IZR k / IZR l)) = Zfloor (IZR k / IZR l) /\ Zceil (rnd (IZR k / IZR l)) = Zceil (IZR k / IZR l)
  /\ Zfloor (rnd (IZR k / IZR l) + / 2) = Zfloor (IZR k / IZR l + / 2) /\ Zceil (rnd (IZR k / IZR l) - / 2) = Zceil (IZR k / IZR l - / 2).
Proof.
  intros k l Hl Bl Bk. set (q := IZR k / IZR l). assert (S := quot_size k l (Z.abs k) Hl ltac:(lia)). fold q in S. apply Rabs_le_inv in S.
  assert (P := pow_half).
  assert (O : forall m, (Z.abs m <= 2 * Z.abs k + 2)%Z -> (q < IZR m / 2 -> rnd q < IZR m / 2) /\ (IZR m / 2 < q -> IZR m / 2 < rnd q) /\ (q = IZR m / 2 -> rnd q = IZR m / 2)).
  { intros m Hm. apply quot_order; auto. lia. }
  assert (O1 : forall m, (Z.abs m <= 2 * Z.abs k + 2)%Z -> q <= IZR m / 2 -> rnd q <= IZR m / 2). { intros m Hm Q. destruct (O m Hm) as (A & _ & C). destruct Q as [Q|Q]; [left; auto|right; auto]. }
  assert (O2 : forall m, (Z.abs m <= 2 * Z.abs k + 2)%Z -> IZR m / 2 <= q -> IZR m / 2 <= rnd q). { intros m Hm Q. destruct (O m Hm) as (_ & A & C). destruct Q as [Q|Q]; [left; auto|right; symmetry; auto]. }
  assert (BZ : forall z : Z, - IZR (Z.abs k) - 1 < IZR z < IZR (Z.abs k) + 1 -> (Z.abs z <= Z.abs k)%Z).
  { intros z [H1 H2]. replace (- IZR (Z.abs k) - 1) with (IZR (- Z.abs k - 1)) in H1 by (rewrite minus_IZR, opp_IZR; ring). replace (IZR (Z.abs k) + 1) with (IZR (Z.abs k + 1)) in H2 by (rewrite plus_IZR; ring). apply lt_IZR in H1, H2. lia. }
  split; [|split; [|split]].
  - generalize (Zfloor_lb q) (Zfloor_ub q). intros A B. assert (Z1 : (Z.abs (Zfloor q) <= Z.abs k)%Z \/ (Zfloor q = - Z.abs k - 1)%Z \/ True) by tauto.
    assert (Z2 : (- Z.abs k <= Zfloor q <= Z.abs k)%Z). { split; [apply Zfloor_lub; rewrite opp_IZR; lra|apply le_IZR; lra]. }
    apply Zfloor_imp. rewrite plus_IZR. split.
    + replace (IZR (Zfloor q)) with (IZR (2 * Zfloor q) / 2) by (rewrite mult_IZR; field). apply O2; [lia|]. rewrite mult_IZR. lra.
    + replace (IZR (Zfloor q) + 1) with (IZR (2 * (Zfloor q + 1)) / 2) by (rewrite mult_IZR, plus_IZR; field). apply O; [lia|]. rewrite mult_IZR, plus_IZR. lra.
  - generalize (Zceil_lb q) (Zceil_ub q). intros A B.
    assert (Z2 : (- Z.abs k <= Zceil q <= Z.abs k)%Z). { split; [apply le_IZR; rewrite opp_IZR; lra|apply Zceil_glb; lra]. }
    apply Zceil_imp. rewrite minus_IZR. split.
    + replace (IZR (Zceil q) - 1) with (IZR (2 * (Zceil q - 1)) / 2) by (rewrite mult_IZR, minus_IZR; field). apply O; [lia|]. rewrite mult_IZR, minus_IZR. lra.
    + replace (IZR (Zceil q)) with (IZR (2 * Zceil q) / 2) by (rewrite mult_IZR; field). apply O1; [lia|]. rewrite mult_IZR. lra.
  - generalize (Zfloor_lb (q + / 2)) (Zfloor_ub (q + / 2)). intros A B. set (z := Zfloor (q + / 2)) in *.
    assert (Z2 : (- Z.abs k <= z <= Z.abs k)%Z). { split; [apply Zfloor_lub; rewrite opp_IZR; lra|]. assert (H : IZR z < IZR (Z.abs k + 1)) by (rewrite plus_IZR; lra). apply lt_IZR in H. lia. }
    apply Zfloor_imp. rewrite plus_IZR. split.
    + assert (IZR (2 * z - 1) / 2 <= rnd q); [apply O2; [lia|]|]; rewrite minus_IZR, mult_IZR in *; lra.
    + assert (rnd q < IZR (2 * z + 1) / 2); [apply O; [lia|]|]; rewrite plus_IZR, mult_IZR in *; lra.
  - generalize (Zceil_lb (q - / 2)) (Zceil_ub (q - / 2)). intros A B. set (z := Zceil (q - / 2)) in *.
    assert (Z2 : (- Z.abs k <= z <= Z.abs k)%Z). { split; [|apply Zceil_glb; lra]. assert (H : IZR (- Z.abs k - 1) < IZR z) by (rewrite minus_IZR, opp_IZR; lra). apply lt_IZR in H. lia. }
    apply Zceil_imp. rewrite minus_IZR. split.
    + assert (IZR (2 * z - 1) / 2 < rnd q); [apply O; [lia|]|]; rewrite minus_IZR, mult_IZR in *; lra.
    + assert (rnd q <= IZR (2 * z + 1) / 2); [apply O1; [lia|]|]; rewrite plus_IZR, mult_IZR in *; lra.
Qed.
Lemma quot_sign : forall k l, l <> 0%Z -> (Z.abs l < 2 ^ (prec - 1))%Z -> (Z.abs k < 2 ^ (prec - 1))%Z ->
  Rlt_bool 0 (rnd (IZR k / IZR l)) = Rlt_bool 0 (IZR k / IZR l) /\ Rlt_bool (rnd (IZR k / IZR l)) 0 = Rlt_bool (IZR k / IZR l) 0.
Proof.
  intros k l Hl Bl Bk. destruct (quot_order k l 0 Hl Bl Bk ltac:(lia)) as (A & B & C). replace (IZR 0 / 2) with 0 in * by field.
  destruct (Rtotal_order (IZR k / IZR l) 0) as [H|[H|H]].
  - specialize (A H). split; [rewrite !Rlt_bool_false by lra|rewrite !Rlt_bool_true by lra]; reflexivity.
  - specialize (C H). rewrite C, H. auto.
  - specialize (B H). split; [rewrite !Rlt_bool_true by lra|rewrite !Rlt_bool_false by lra]; reflexivity.
Qed.
Lemma quot_trunc : forall k l, l <> 0%Z -> (Z.abs l < 2 ^ (prec - 1))%Z -> (Z.abs k < 2 ^ (prec - 1))%Z -> Ztrunc (rnd (IZR k / IZR l)) = Ztrunc (IZR k / IZR l).
Proof.
  intros k l Hl Bl Bk. unfold Ztrunc. destruct (quot_sign k l Hl Bl Bk) as [_ ->]. destruct (quot_floor k l Hl Bl Bk) as (A & B & _). destruct (Rlt_bool _ 0); auto.
Qed.
Lemma quot_below_half : forall k l, l <> 0%Z -> (Z.abs l < 2 ^ (prec - 1))%Z -> Rabs (rnd (IZR k / IZR l)) <> / 2 - bpow radix2 (-1 - prec).
Proof.
  intros k l Hl Bl Q. assert (P := pow_half). assert (E := quot_error k l Hl Bl). set (q := IZR k / IZR l) in *.
  assert (U : bpow radix2 (-1 - prec) = bpow radix2 (- prec) / 2). { replace (-1 - prec)%Z with (- prec + -1)%Z by lia. rewrite bpow_plus. change (bpow radix2 (-1)) with (/ 2). reflexivity. }
  set (u := bpow radix2 (- prec)) in *. rewrite U in Q. assert (U0 : 0 < u) by apply bpow_gt_0.
  assert (U1 : u <= / 8). { unfold u. change (/ 8) with (bpow radix2 (-3)). apply bpow_le. lia. }
  assert (L0 : 0 < Rabs (IZR l)) by (apply Rabs_pos_lt; now apply IZR_neq).
  (* | |q| - 1/2 | < u *)
  assert (D : Rabs (Rabs q - / 2) < u).
  { assert (T := Rabs_triang_inv2 (rnd q) q). assert (T' : Rabs (Rabs (rnd q) - Rabs q) <= u * Rabs q) by lra. rewrite Q in T'. apply Rabs_le_inv in T'.
    assert (Rabs q <= 1) by nra. assert (Rabs q < / 2 + u) by nra. apply Rabs_def1; nra. }
  assert (NQ : Rabs q = Rabs (IZR k) / Rabs (IZR l)) by (unfold q, Rdiv; now rewrite Rabs_mult, Rabs_inv).
  assert (Z1 : (Z.abs (2 * Z.abs k - Z.abs l) < 1)%Z).
  { apply lt_IZR. rewrite abs_IZR, minus_IZR, mult_IZR, !abs_IZR. replace (2 * Rabs (IZR k) - Rabs (IZR l)) with ((Rabs q - / 2) * (2 * Rabs (IZR l))) by (rewrite NQ; field; lra).
    rewrite Rabs_mult, (Rabs_pos_eq (2 * _)) by lra. apply Rlt_le_trans with (u * (2 * Rabs (IZR l))); [apply Rmult_lt_compat_r; lra|].
    apply Rle_trans with (u * bpow radix2 prec); [|unfold u; rewrite <- bpow_plus, Z.add_opp_diag_l; simpl; lra].
    apply Rmult_le_compat_l; [lra|]. rewrite bp2, <- abs_IZR, <- mult_IZR. apply IZR_le. lia. }
  assert (Z2 : IZR (2 * Z.abs k) = IZR (Z.abs l)) by (f_equal; lia). rewrite mult_IZR, !abs_IZR in Z2.
  assert (QH : Rabs q = / 2) by (rewrite NQ, <- Z2; field; lra).
  (* then the quotient is 1/2 exactly and does not round *)
  assert (G : rnd q = q).
  { apply round_generic; [apply valid_rnd_N|]. unfold Rabs in QH. destruct (Rcase_abs q).
    - replace q with (IZR (-1) * bpow radix2 (-1)) by (change (bpow radix2 (-1)) with (/ 2); lra). apply (fl_format prec emax); [apply (Z.pow_le_mono_r 2 0 prec); lia|lia].
    - replace q with (IZR 1 * bpow radix2 (-1)) by (change (bpow radix2 (-1)) with (/ 2); lra). apply (fl_format prec emax); [apply (Z.pow_le_mono_r 2 0 prec); lia|lia]. }
  rewrite G, QH in Q. lra.
Qed.

(** ** Transfer *)
Lemma rel_tight : forall e A K x a, rel e A x a -> Rabs (B2R x) <= IZR K * bpow radix2 e -> rel e K x a.
Proof.
  intros e A K x a [[F (k & V & L)] ->] H. split; auto. split; auto. exists k. split; auto. rewrite V, Rabs_mult, (Rabs_pos_eq (bpow radix2 e)) in H by apply bpow_ge_0.
  apply Rmult_le_reg_r in H; [|apply bpow_gt_0]. rewrite <- abs_IZR in H. now apply le_IZR.
Qed.
Lemma rel_mul_tight : forall e f A B M x y a b, rel e A x a -> rel f B y b -> Rabs (B2R x * B2R y) <= IZR M * bpow radix2 (e + f) -> fits (e + f) M -> rel (e + f) M (o_mul x y) (o_mul a b).
Proof.
  intros e f A B M x y a b [[Fx (k & Kx & Bx)] ->] [[Fy (l & Ky & By)] ->] H0 H.
  assert (E : B2R x * B2R y = IZR (k * l) * bpow radix2 (e + f)) by (rewrite Kx, Ky, mult_IZR, bpow_plus; ring).
  assert (L : (Z.abs (k * l) <= M)%Z).
  { rewrite E, Rabs_mult, (Rabs_pos_eq (bpow radix2 _)) in H0 by apply bpow_ge_0. apply Rmult_le_reg_r in H0; [|apply bpow_gt_0]. rewrite <- abs_IZR in H0. now apply le_IZR. }
  destruct (grid_format prec emax (e + f) M (k * l) H L) as [G1 G2].
  generalize (Bmult_correct prec emax Hprec Hmax mode_NE x y). rewrite E, G1, Rlt_bool_true by auto. rewrite Fx, Fy. intros (V & F & _).
  split; [split; [exact F|exists (k * l)%Z; split; [exact V|lia]]|]. cbn. f_equal. rewrite E. symmetry. exact V.
Qed.

Section Quot.
Variables (e K : Z) (x y : fl).
Hypothesis (Gx : on_grid e K x) (Gy : on_grid e K y) (Ny : B2R y <> 0) (HF : fits e (2 * K)).
Lemma K_small : (K < 2 ^ (prec - 1))%Z.
Proof. destruct HF as [_ H]. assert (P := pow_half). lia. Qed.
Lemma quot_F : exists k l, l <> 0%Z /\ (Z.abs k <= K)%Z /\ (Z.abs l <= K)%Z /\ B2R x / B2R y = IZR k / IZR l
  /\ is_finite (o_div x y) = true /\ B2R (o_div x y) = rnd (IZR k / IZR l).
Proof.
  destruct Gx as [Fx (k & Vx & Bx)], Gy as [Fy (l & Vy & By)]. assert (KS := K_small).
  assert (Nl : l <> 0%Z) by (intros ->; apply Ny; rewrite Vy; ring). exists k, l.
  assert (EQ : B2R x / B2R y = IZR k / IZR l). { rewrite Vx, Vy. field. split; [now apply IZR_neq|]. apply Rgt_not_eq, bpow_gt_0. }
  split; [exact Nl|]. split; [exact Bx|]. split; [exact By|]. split; [exact EQ|].
  generalize (Bdiv_correct prec emax Hprec Hmax mode_NE x y Ny). rewrite EQ, Rlt_bool_true.
  - rewrite Fx. intros (V & F & _). split; [exact F|exact V].
  - apply Rle_lt_trans with (bpow radix2 prec); [|apply bpow_lt; lia]. apply abs_round_le_generic; [apply fexp_correct, Hprec|apply valid_rnd_N| |].
    + apply generic_format_bpow. unfold SpecFloat.fexp, SpecFloat.emin. lia.
    + rewrite bp2. apply quot_size; [exact Nl|]. assert (P := pow_half). lia.
Qed.
Lemma quot_i64 : forall q : R, Rabs q <= IZR K -> i64_range q /\ Rabs q < i64 - 1.
Proof.
  intros q H. assert (KS := K_small). assert (P62 : (2 ^ (prec - 1) <= 2 ^ 62)%Z) by (apply Z.pow_le_mono_r; lia).
  assert (B : IZR K <= IZR (2 ^ 62)) by (apply IZR_le; lia). unfold i64_range. rewrite bpow63.
  assert (W : IZR (2 ^ 62) = 4611686018427387904) by (now simpl). rewrite W in B. assert (W2 : IZR (2 ^ 63) = 9223372036854775808) by (now simpl). rewrite W2.
  apply Rabs_le_inv in H. split; [lra|]. apply Rabs_def1; lra.
Qed.
Lemma int_rel : forall (t : fl) z, is_finite t = true -> B2R t = IZR z -> rel 0 (Z.abs z) t (Some (IZR z)).
Proof. intros t z F V. split; [split; [exact F|]|now rewrite V]. exists z. split; [rewrite V; simpl; ring|lia]. Qed.
Lemma real_quot : Rabs (B2R x / B2R y) <= IZR K.
Proof. destruct quot_F as (k & l & Nl & Bk & Bl & -> & _). now apply quot_size. Qed.
Lemma rnd_quot : forall k l, l <> 0%Z -> (Z.abs k <= K)%Z -> Rabs (rnd (IZR k / IZR l)) <= IZR K.
Proof.
  intros k l Nl Bk. apply abs_round_le_generic; [apply fexp_correct, Hprec|apply valid_rnd_N| |now apply quot_size].
  apply (IZR_format prec emax). assert (KS := K_small). assert (P := pow_half). lia.
Qed.
Lemma trunc_quot : exists t, sc_trunc (o_div x y) = Ret t /\ rel 0 (Z.abs (Ztrunc (B2R x / B2R y))) t (Some (IZR (Ztrunc (B2R x / B2R y)))).
Proof.
  destruct quot_F as (k & l & Nl & Bk & Bl & -> & F & V). assert (KS := K_small).
  destruct (F_trunc prec emax (o_div x y) F) as (t & E & Ft & Bt). { rewrite V. apply quot_i64. now apply rnd_quot. }
  exists t. split; [exact E|]. apply int_rel; auto. rewrite Bt, V. f_equal. apply quot_trunc; auto; lia.
Qed.
Lemma round_quot : exists t, sc_round (o_div x y) = Ret t /\ rel 0 (Z.abs (Zround_away (B2R x / B2R y))) t (Some (IZR (Zround_away (B2R x / B2R y)))).
Proof.
  destruct quot_F as (k & l & Nl & Bk & Bl & -> & F & V). assert (KS := K_small).
  destruct (F_round prec emax ltac:(lia) (o_div x y) F ltac:(lia)) as (t & E & Ft & Bt).
  - rewrite V. eapply Rle_lt_trans; [apply (rnd_quot k l Nl Bk)|]. replace (bpow radix2 (prec - 1)) with (IZR (2 ^ (prec - 1))); [now apply IZR_lt|].
    change 2%Z with (radix_val radix2). rewrite (IZR_Zpower radix2); [reflexivity|lia].
  - rewrite V. apply quot_below_half; auto. lia.
  - exists t. split; [exact E|]. apply int_rel; auto. rewrite Bt, V. f_equal. unfold Zround_away. destruct (quot_sign k l Nl ltac:(lia) ltac:(lia)) as [-> _].
    destruct (quot_floor k l Nl ltac:(lia) ltac:(lia)) as (_ & _ & -> & ->). reflexivity.
Qed.
Lemma floor_quot : exists t, sc_floor (o_div x y) = Ret t /\ rel 0 (Z.abs (Zfloor (B2R x / B2R y))) t (Some (IZR (Zfloor (B2R x / B2R y)))).
Proof.
  destruct quot_F as (k & l & Nl & Bk & Bl & -> & F & V). assert (KS := K_small).
  destruct (F_floor prec emax (o_div x y) F) as (t & E & Ft & Bt). { rewrite V. apply quot_i64. now apply rnd_quot. }
  exists t. split; [exact E|]. apply int_rel; auto. rewrite Bt, V. f_equal. apply quot_floor; auto; lia.
Qed.
Lemma ceil_quot : exists t, sc_ceil (o_div x y) = Ret t /\ rel 0 (Z.abs (Zceil (B2R x / B2R y))) t (Some (IZR (Zceil (B2R x / B2R y)))).
Proof.
  destruct quot_F as (k & l & Nl & Bk & Bl & -> & F & V). assert (KS := K_small).
  destruct (F_ceil prec emax (o_div x y) F) as (t & E & Ft & Bt). { rewrite V. apply quot_i64. now apply rnd_quot. }
  exists t. split; [exact E|]. apply int_rel; auto. rewrite Bt, V. f_equal. apply quot_floor; auto; lia.
Qed.
Lemma X_div : o_div (Some (B2R x)) (Some (B2R y)) = Some (B2R x / B2R y) :> XR.
Proof. cbn. now rewrite Req_bool_false. Qed.
Lemma size_x : Rabs (B2R x) <= IZR K * bpow radix2 e /\ Rabs (B2R y) <= IZR K * bpow radix2 e.
Proof.
  destruct Gx as [_ (k & -> & Bk)], Gy as [_ (l & -> & Bl)]. rewrite !Rabs_mult, (Rabs_pos_eq (bpow radix2 e)) by apply bpow_ge_0. split; (apply Rmult_le_compat_r; [apply bpow_ge_0|]; rewrite <- abs_IZR; now apply IZR_le).
Qed.
(** Multiples of y close to x *)
Lemma near_mul : forall t z, rel 0 (Z.abs z) t (Some (IZR z)) -> Rabs (B2R x / B2R y - IZR z) <= 1 -> rel e (2 * K) (o_mul y t) (o_mul (Some (B2R y)) (Some (IZR z))).
Proof.
  intros t z R H. replace e with (e + 0)%Z at 1 by lia. apply (rel_mul_tight e 0 K (Z.abs z)); auto; [now split| |now rewrite Z.add_0_r].
  rewrite Z.add_0_r, mult_IZR. destruct R as [_ R]. injection R as <-. destruct size_x as [Sx Sy].
  replace (B2R y * IZR z) with (B2R x - B2R y * (B2R x / B2R y - IZR z)) by (field; auto).
  eapply Rle_trans; [apply Rabs_triang|]. rewrite Rabs_Ropp, Rabs_mult. assert (0 <= Rabs (B2R y)) by apply Rabs_pos. nra.
Qed.
Lemma trunc_near : forall q : R, Rabs (q - IZR (Ztrunc q)) <= 1 /\ Rabs (IZR (Ztrunc q)) <= Rabs q.
Proof.
  intros q. destruct (Rle_or_lt 0 q) as [H|H].
  - rewrite Ztrunc_floor by auto. generalize (Zfloor_lb q) (Zfloor_ub q). intros A B. assert (0 <= IZR (Zfloor q)) by (apply (IZR_le 0); apply Zfloor_lub; lra).
    rewrite (Rabs_pos_eq q), (Rabs_pos_eq (IZR _)) by lra. split; [apply Rabs_le|]; lra.
  - rewrite Ztrunc_ceil by lra. generalize (Zceil_lb q) (Zceil_ub q). intros A B. assert (IZR (Zceil q) <= 0) by (apply (IZR_le _ 0); apply Zceil_glb; lra).
    rewrite (Rabs_left1 q), (Rabs_left1 (IZR _)) by lra. split; [apply Rabs_le|]; lra.
Qed.
Lemma mod_grid : exists r (k : Z), sc_mod x y = Ret r /\ on_grid e K r /\ B2R x = IZR k * B2R y + B2R r /\ Rabs (B2R r) < Rabs (B2R y) /\ 0 <= B2R r * B2R x.
Proof.
  destruct trunc_quot as (t & E & R). set (z := Ztrunc (B2R x / B2R y)) in *. destruct (trunc_near (B2R x / B2R y)) as [T1 T2]. fold z in T1, T2.
  assert (M := near_mul t z R T1). destruct size_x as [Sx Sy].
  assert (M' : rel e K (o_mul y t) (o_mul (Some (B2R y)) (Some (IZR z)))).
  { apply (rel_tight _ _ _ _ _ M). assert (V : B2R (o_mul y t) = B2R y * IZR z) by (destruct M as [_ M]; cbn in M; injection M as M; symmetry; exact M). rewrite V. eapply Rle_trans; [|exact Sx]. rewrite Rabs_mult.
    apply Rle_trans with (Rabs (B2R y) * Rabs (B2R x / B2R y)); [apply Rmult_le_compat_l; [apply Rabs_pos|exact T2]|]. rewrite <- Rabs_mult. right. f_equal. field. auto. }
  assert (S := rel_sub prec emax e K K x (o_mul y t) (Some (B2R x)) _ (conj Gx eq_refl) M' ltac:(replace (K + K)%Z with (2 * K)%Z by lia; exact HF)).
  assert (XM : sc_mod (Some (B2R x)) (Some (B2R y)) = Ret (o_sub (Some (B2R x)) (o_mul (Some (B2R y)) (Some (IZR z))))).
  { unfold sc_mod. rewrite X_div, X_trunc; [reflexivity|]. assert (Q := proj2 (quot_i64 _ real_quot)). lra. }
  destruct (X_mod_spec (B2R x) (B2R y) Ny) as (r & k & E' & A & B & C). { assert (Q := proj2 (quot_i64 _ real_quot)). lra. }
  rewrite XM in E'. injection E' as E'. exists (o_sub x (o_mul y t)), k. split; [unfold sc_mod; rewrite E; reflexivity|].
  assert (V : B2R (o_sub x (o_mul y t)) = r). { destruct S as [_ S]. cbn in S. injection S as S. etransitivity; [symmetry; exact S|exact E']. }
  rewrite V. split; [|auto]. apply (rel_tight e (K + K) K _ _ S). rewrite V. lra.
Qed.
Lemma snap_grid : exists s (k : Z), sc_snap x y = Ret s /\ on_grid e (2 * K) s /\ B2R s = B2R y * IZR k
  /\ Rabs (B2R x - B2R s) <= Rabs (B2R y) / 2 /\ (forall k' : Z, Rabs (B2R x - B2R s) <= Rabs (B2R x - B2R y * IZR k')).
Proof.
  destruct round_quot as (t & E & R). set (z := Zround_away (B2R x / B2R y)) in *. assert (Q := quot_i64 _ real_quot).
  assert (XS : sc_snap (Some (B2R x)) (Some (B2R y)) = Ret (o_mul (Some (B2R y)) (Some (IZR z)))).
  { unfold sc_snap, require. change (o_eq (Some (B2R y)) (cst 0)) with (Req_bool (B2R y) 0). rewrite Req_bool_false by auto. cbn [negb]. rewrite X_div, X_round by apply Q. reflexivity. }
  destruct (X_snap_spec (B2R x) (B2R y) Ny (proj2 Q)) as (k & E' & A & B). rewrite XS in E'. cbn in E'. injection E' as E'.
  apply Rmult_eq_reg_l in E'; auto. apply eq_IZR in E'. rewrite <- E' in A, B.
  assert (NB : Rabs (B2R x / B2R y - IZR z) <= 1).
  { assert (W : Rabs (B2R y) * Rabs (B2R x / B2R y - IZR z) <= Rabs (B2R y) * / 2). { rewrite <- Rabs_mult. replace (B2R y * (B2R x / B2R y - IZR z)) with (B2R x - B2R y * IZR z) by (field; auto). exact A. }
    apply Rmult_le_reg_l in W; [lra|]. now apply Rabs_pos_lt. }
  assert (M := near_mul t z R NB). exists (o_mul y t), z. destruct (F_cst0 prec emax) as [F0 B0].
  split. { unfold sc_snap, require. change (o_eq y (cst 0)) with (Beqb y (cst 0)). rewrite (Feq prec emax) by (auto; apply Gy). rewrite B0, Req_bool_false by auto. cbn [negb]. rewrite E. reflexivity. }
  assert (V : B2R (o_mul y t) = B2R y * IZR z). { destruct M as [_ M]. cbn in M. injection M as M. symmetry. exact M. }
  rewrite V. split; [apply M|]. split; [reflexivity|]. split; auto.
Qed.
Hypothesis Py : 0 < B2R y.
Lemma round_away_near : forall q : R, exists up down : Z, (if Rlt_bool q 0 then Zfloor q else Zceil q) = up /\ (if Rlt_bool 0 q then Zfloor q else Zceil q) = down
  /\ Rabs (q - IZR up) <= 1 /\ Rabs (q - IZR down) <= 1.
Proof.
  intros q. do 2 eexists. split; [reflexivity|]. split; [reflexivity|]. generalize (Zfloor_lb q) (Zfloor_ub q) (Zceil_lb q) (Zceil_ub q). intros A B C D.
  split; [destruct (Rlt_bool q 0)|destruct (Rlt_bool 0 q)]; apply Rabs_le; lra.
Qed.
Lemma quot_signs : o_lt (o_div x y) (cst 0) = Rlt_bool (B2R x / B2R y) 0 /\ o_lt (cst 0) (o_div x y) = Rlt_bool 0 (B2R x / B2R y).
Proof.
  destruct quot_F as (k & l & Nl & Bk & Bl & -> & F & V). assert (KS := K_small). destruct (F_cst0 prec emax) as [F0 B0].
  change (o_lt (o_div x y) (cst 0)) with (Bltb (o_div x y) (cst 0)). change (o_lt (cst 0) (o_div x y)) with (Bltb (cst 0) (o_div x y)).
  rewrite !(Flt prec emax) by auto. rewrite B0, V. destruct (quot_sign k l Nl ltac:(lia) ltac:(lia)) as [-> ->]. auto.
Qed.
Lemma snap_up_grid : exists s (k : Z), sc_snap_up x y = Ret s /\ on_grid e (2 * K) s /\ B2R s = B2R y * IZR k
  /\ 0 <= B2R x * B2R s /\ Rabs (B2R x) <= Rabs (B2R s) < Rabs (B2R x) + B2R y.
Proof.
  assert (Q := quot_i64 _ real_quot). destruct (round_away_near (B2R x / B2R y)) as (z & _ & Ez & _ & NB & _).
  assert (R : exists t, sc_round_up (o_div x y) = Ret t /\ rel 0 (Z.abs z) t (Some (IZR z))).
  { unfold sc_round_up. rewrite (proj1 quot_signs). rewrite <- Ez. destruct (Rlt_bool _ 0); [apply floor_quot|apply ceil_quot]. }
  destruct R as (t & E & R).
  assert (XS : sc_snap_up (Some (B2R x)) (Some (B2R y)) = Ret (o_mul (Some (B2R y)) (Some (IZR z)))).
  { unfold sc_snap_up, require. change (o_lt (cst 0) (Some (B2R y))) with (Rlt_bool 0 (B2R y)). rewrite Rlt_bool_true by auto. rewrite X_div. unfold sc_round_up.
    change (o_lt (Some (B2R x / B2R y)) (cst 0)) with (Rlt_bool (B2R x / B2R y) 0). rewrite <- Ez. destruct (Rlt_bool _ 0); [rewrite X_floor by lra|rewrite X_ceil by lra]; reflexivity. }
  destruct (X_snap_up_spec (B2R x) (B2R y) Py (proj2 Q)) as (k & E' & A & B). rewrite XS in E'. cbn in E'. injection E' as E'.
  apply Rmult_eq_reg_l in E'; auto. apply eq_IZR in E'. rewrite <- E' in A, B.
  assert (M := near_mul t z R NB). exists (o_mul y t), z. destruct (F_cst0 prec emax) as [F0 B0].
  split. { unfold sc_snap_up, require. change (o_lt (cst 0) y) with (Bltb (cst 0) y). rewrite (Flt prec emax) by (auto; apply Gy). rewrite B0, Rlt_bool_true by auto. rewrite E. reflexivity. }
  assert (V : B2R (o_mul y t) = B2R y * IZR z). { destruct M as [_ M]. cbn in M. injection M as M. symmetry. exact M. }
  rewrite V. split; [apply M|]. split; [reflexivity|]. split; auto.
Qed.
Lemma snap_down_grid : exists s (k : Z), sc_snap_down x y = Ret s /\ on_grid e (2 * K) s /\ B2R s = B2R y * IZR k
  /\ 0 <= B2R x * B2R s /\ Rabs (B2R s) <= Rabs (B2R x) < Rabs (B2R s) + B2R y.
Proof.
  assert (Q := quot_i64 _ real_quot). destruct (round_away_near (B2R x / B2R y)) as (_ & z & _ & Ez & _ & NB).
  assert (R : exists t, sc_round_down (o_div x y) = Ret t /\ rel 0 (Z.abs z) t (Some (IZR z))).
  { unfold sc_round_down. rewrite (proj2 quot_signs). rewrite <- Ez. destruct (Rlt_bool 0 _); [apply floor_quot|apply ceil_quot]. }
  destruct R as (t & E & R).
  assert (XS : sc_snap_down (Some (B2R x)) (Some (B2R y)) = Ret (o_mul (Some (B2R y)) (Some (IZR z)))).
  { unfold sc_snap_down, require. change (o_lt (cst 0) (Some (B2R y))) with (Rlt_bool 0 (B2R y)). rewrite Rlt_bool_true by auto. rewrite X_div. unfold sc_round_down.
    change (o_lt (cst 0) (Some (B2R x / B2R y))) with (Rlt_bool 0 (B2R x / B2R y)). rewrite <- Ez. destruct (Rlt_bool 0 _); [rewrite X_floor by lra|rewrite X_ceil by lra]; reflexivity. }
  destruct (X_snap_down_spec (B2R x) (B2R y) Py (proj2 Q)) as (k & E' & A & B). rewrite XS in E'. cbn in E'. injection E' as E'.
  apply Rmult_eq_reg_l in E'; auto. apply eq_IZR in E'. rewrite <- E' in A, B.
  assert (M := near_mul t z R NB). exists (o_mul y t), z. destruct (F_cst0 prec emax) as [F0 B0].
  split. { unfold sc_snap_down, require. change (o_lt (cst 0) y) with (Bltb (cst 0) y). rewrite (Flt prec emax) by (auto; apply Gy). rewrite B0, Rlt_bool_true by auto. rewrite E. reflexivity. }
  assert (V : B2R (o_mul y t) = B2R y * IZR z). { destruct M as [_ M]. cbn in M. injection M as M. symmetry. exact M. }
  rewrite V. split; [apply M|]. split; [reflexivity|]. split; auto.
Qed.
End Quot.
End Grid.
