(** Linear interpolation in machine arithmetic; cases for the theorems on transformations and rounding. *)
From Coq Require Import ZArith Reals List Lia Lra Bool.
From Flocq Require Import Core BinarySingleNaN.
From Verif Require Import Ops M_scalar M_vec M_mat M_bbox M_matext M_geom Inst_F S_order S_vec S_mat S_rnd P_ord P_ieee P_vec P_vec2 P_mat P_fp P_fp2 P_fp3 P_fp4 P_fp5 P_fp6 P_fp7.
Import ListNotations.
Local Open Scope R_scope.

Section FP.
Variables prec emax : Z.
Context {Hprec : Prec_gt_0 prec} {Hmax : Prec_lt_emax prec emax}.
Notation fl := (binary_float prec emax).
Notation u := (unit_roundoff prec).
Notation eta := (underflow_error prec emax).
Notation err := (rounding_error prec emax).

Lemma sub_self : forall x : fl, is_finite x = true -> zero prec emax (o_sub x x).
Proof.
  intros x F. destruct (Fminus_exact prec emax x x F F) as [A B].
  - rewrite Rminus_diag_eq by reflexivity. apply generic_format_0.
  - rewrite Rminus_diag_eq, Rabs_R0 by reflexivity. apply bpow_gt_0.
  - apply zero_value; auto. rewrite B. lra.
Qed.
Lemma sub_zero : forall x z : fl, zero prec emax z -> feq prec emax (o_sub x z) x.
Proof. intros x z [s ->]. rewrite sub_add. apply add_zero_r. now exists (negb s). Qed.
Lemma mix_start : forall x y : fl, is_finite x = true -> is_finite y = true -> comp_eq (sc_mix x y (cst 0)) x.
Proof.
  intros x y Fx Fy. apply feq_comp. unfold sc_mix. assert (Z0 := cst0_zero prec emax).
  eapply feq_trans; [apply add_zero_r; now apply mul_zero_l|].
  assert (E : o_sub (cst 1) (cst 0) = cst 1 :> fl).
  { destruct (F_cst1 prec emax) as [F1 V1]. apply (feq_nonzero prec emax); [now apply sub_zero|rewrite V1; lra]. }
  rewrite E, mul_1_l. now left.
Qed.
Lemma mix_end : forall x y : fl, is_finite x = true -> is_finite y = true -> comp_eq (sc_mix x y (cst 1)) y.
Proof.
  intros x y Fx Fy. apply feq_comp. unfold sc_mix. rewrite mul_1_l. apply add_zero_l. apply mul_zero_l; auto. apply sub_self, F_cst1.
Qed.
Lemma mix_ok : forall x y a : fl, is_finite x = true -> is_finite y = true -> is_finite a = true -> 0 <= B2R a <= 1 ->
  let s := (1 - B2R a) * Rabs (B2R x) + B2R a * Rabs (B2R y) in no_overflow prec emax 3 s ->
  near (sc_mix x y a) ((1 - B2R a) * B2R x + B2R a * B2R y) (err 3 s).
Proof.
  intros x y a Fx Fy Fa Ha s H. destruct (F_cst1 prec emax) as [F1 V1]. assert (U0 := u_pos prec). assert (E0 := eta_pos prec emax).
  assert (U1 : u <= / 2).
  { unfold unit_roundoff. change (/ 2) with (bpow radix2 (-1)). apply bpow_le. assert (P := Hp prec). lia. }
  assert (EB := emax_big prec emax).
  assert (B4 : 4 <= bpow radix2 emax). { change 4 with (bpow radix2 2). now apply bpow_le. }
  destruct (minus_ok prec emax (cst 1) a F1 Fa) as (Fb & d & Hd & Vb).
  { rewrite V1. rewrite Rabs_pos_eq by lra. nra. }
  rewrite V1 in Vb. set (b := o_sub (cst 1) a : fl) in *. change (sc_mix x y a) with (o_add (o_mul b x) (o_mul a y)).
  apply Rabs_le_inv in Hd. set (A := B2R a) in *.
  assert (SX := Rabs_pos (B2R x)). assert (SY := Rabs_pos (B2R y)).
  assert (B0 : 0 <= B2R b <= (1 + u) * (1 - A)) by (rewrite Vb; nra).
  assert (S' : Rabs (B2R b) * Rabs (B2R x) + Rabs A * Rabs (B2R y) <= (1 + u) * s).
  { rewrite (Rabs_pos_eq (B2R b)), (Rabs_pos_eq A) by lra. unfold s. 
    assert (G1 : B2R b * Rabs (B2R x) <= (1 + u) * (1 - A) * Rabs (B2R x)) by (apply Rmult_le_compat_r; lra).
    assert (G2 : 0 <= A * Rabs (B2R y)) by (apply Rmult_le_pos; lra). nra. }
  assert (S0 : 0 <= s). { unfold s. apply Rplus_le_le_0_compat; apply Rmult_le_pos; lra. }
  destruct (two_products prec emax b x a y Fb Fx Fa Fy) as [G1 G2].
  { unfold no_overflow in *. eapply Rle_lt_trans; [|exact H]. apply Rle_trans with ((1 + u) ^ 2 * ((1 + u) * s + 2 * eta)).
    - apply Rmult_le_compat_l; [apply pow_le; lra|]. fold A. simpl INR. lra.
    - replace ((1 + u) ^ 3 * (s + INR 3 * eta)) with ((1 + u) ^ 2 * ((1 + u) * s + (1 + u) * (3 * eta))) by (simpl; ring).
      apply Rmult_le_compat_l; [apply pow_le; lra|]. nra. }
  fold A in G2. split; [exact G1|]. set (r := B2R (o_add (o_mul b x) (o_mul a y))) in *.
  replace (r - ((1 - A) * B2R x + A * B2R y)) with ((r - (B2R b * B2R x + A * B2R y)) + d * ((1 - A) * B2R x)) by (rewrite Vb; ring).
  eapply Rle_trans; [apply Rabs_triang|].
  assert (G3 : Rabs (d * ((1 - A) * B2R x)) <= u * s).
  { rewrite !Rabs_mult, (Rabs_pos_eq (1 - A)) by lra. apply Rle_trans with (u * ((1 - A) * Rabs (B2R x))).
    - apply Rmult_le_compat_r; [apply Rmult_le_pos; lra|]. apply Rabs_le. lra.
    - apply Rmult_le_compat_l; [lra|]. unfold s. assert (0 <= A * Rabs (B2R y)) by (apply Rmult_le_pos; lra). lra. }
  assert (Q : 0 <= (1 + u) ^ 2 - 1) by (simpl; nra).
  assert (G4 := Rmult_le_compat_l _ _ _ Q S'). fold A in G2.
  unfold rounding_error in *. simpl INR in *. 
  assert (Q2 : 0 <= (1 + u) ^ 2 * eta) by (apply Rmult_le_pos; [apply pow_le|]; lra).
  replace ((1 + u) ^ 3) with ((1 + u) * (1 + u) ^ 2) by ring. nra.
Qed.
End FP.

Lemma mix_overshoot : exists x a : double, is_finite x = true /\ is_finite a = true /\ 0 <= B2R a <= 1 /\ Bltb x (sc_mix x x a) = true.
Proof.
  exists (cst 3), (o_div (cst 1) (cst 5)). split; [reflexivity|]. split; [vm_compute; reflexivity|]. split; [|vm_compute; reflexivity].
  assert (F : is_finite (o_div (cst 1) (cst 5) : double) = true) by (vm_compute; reflexivity).
  split.
  - apply (proj1 (le_fin 53 1024 (B754_zero false) _ eq_refl F)). vm_compute. reflexivity.
  - destruct (F_cst1 53 1024) as [F1 V1]. rewrite <- V1. apply (proj1 (le_fin 53 1024 _ _ F F1)). vm_compute. reflexivity.
Qed.
Definition m345 : list (list double) := [[cst 2; cst 0; cst 1; cst 0]; [cst 0; cst 3; cst (-1); cst 0]; [cst 1; cst 1; cst 1; cst 0]; [cst 5; cst 6; cst 7; cst 1]].
Lemma m345_case : is_mat 4 4 m345 /\ finite_mat m345 /\ values (row m345 3) = repeat 0 3 ++ [1]
  /\ no_overflow 53 1024 4 (size_dot (values (row m345 2)) (values v345 ++ [1]))
  /\ v_eq (m_mul_p 4 m345 v345) [cst 23; cst 30; cst 18] = true.
Proof.
  assert (C : forall n, (Z.abs n <= 2 ^ 53)%Z -> is_finite (cst n : double) = true /\ B2R (cst n : double) = IZR n) by exact cst_double.
  split; [split; [reflexivity|repeat constructor]|].
  split; [repeat constructor; apply C; lia|].
  split. { unfold row, m345, values. cbn [map nth]. rewrite !(fun n H => proj2 (C n H)) by lia. reflexivity. }
  split.
  - apply no_overflow_double; [lia|]. unfold row, m345, size_dot. rewrite v345_values. unfold values. cbn [map nth app rdot].
    rewrite !(fun n H => proj2 (C n H)) by lia. unfold rdot, map. 
    rewrite ?Rabs_R1, (Rabs_pos_eq 7), (Rabs_pos_eq 3), (Rabs_pos_eq 4), (Rabs_pos_eq 12), (Rabs_left (-1)) by lra. lra.
  - vm_compute. reflexivity.
Qed.
Lemma exact_case : all_finite v345 /\ v_eq (m_mul_p 4 (translation_matrix v345) v345) [cst 6; cst 8; cst 24] = true
  /\ v_eq (m_mul_p 4 rot_90_x_cw v345) [cst 3; cst 12; cst (-4)] = true /\ finite_mat m345 /\ is_mat 4 4 m345.
Proof.
  split; [exact v345_finite|]. split; [vm_compute; reflexivity|]. split; [vm_compute; reflexivity|]. split; apply m345_case.
Qed.
Lemma cross_size_case : forall i, (i < 3)%nat -> no_overflow 53 1024 2 (nth i (cross_sizes (values v345) (values v345)) 0).
Proof.
  intros i Hi. rewrite v345_values. apply no_overflow_double; [lia|]. unfold cross_sizes. cbn [nth].
  rewrite (Rabs_pos_eq 3), (Rabs_pos_eq 4), (Rabs_pos_eq 12) by lra. destruct i as [|[|[|]]]; try lia; simpl; lra.
Qed.
Lemma distance_case : let w := [cst 0; cst 0; cst 0] : list double in all_finite w /\ few 53 (length v345)
  /\ bpow radix2 (5 - 1024 / 2) <= rnorm (rsub (values v345) (values w)) <= bpow radix2 (1024 / 2 - 2).
Proof.
  cbv zeta. split; [repeat constructor|]. split; [apply few_double; cbn; lia|]. rewrite v345_values.
  assert (E : values [cst 0; cst 0; cst 0 : double] = [0; 0; 0]). { unfold values. cbn [map]. rewrite (proj2 (cst_double 0 ltac:(lia))). reflexivity. }
  rewrite E. replace (rnorm (rsub [3; 4; 12] [0; 0; 0])) with 13.
  2:{ unfold rnorm. symmetry. apply sqrt_lem_1; try lra; simpl; lra. }
  split; (apply Rle_trans with (bpow radix2 0) + apply Rle_trans with (bpow radix2 4)); try (apply bpow_le; vm_compute; discriminate); simpl; lra.
Qed.
Lemma mix_case : no_overflow 53 1024 3 ((1 - / 4) * Rabs 3 + / 4 * Rabs 12) /\ Beqb (sc_mix (cst 3) (cst 12) (lit 1 4)) (lit 21 4 : double) = true.
Proof.
  split; [|vm_compute; reflexivity]. apply no_overflow_double; [lia|]. rewrite !Rabs_pos_eq by lra. lra.
Qed.
